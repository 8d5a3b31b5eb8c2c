(* SamplingProofs.v -- sampling interval detection. *)
From Coq Require Import Permutation.
From Verif Require Import SpecIntervals BaseLemmas AccessProofs3 OpsProofs OpsProofs2 IntervalsProofs.

Definition cget (d : Qc) (m : counts) : nat := fold_right (fun kv a => if qeqb (fst kv) d then snd kv else a) 0 m.
Lemma cget_add d x m : cget d (count_add x m) = cget d m + (if qeqb x d then 1 else 0).
Proof.
  induction m as [|[k n] m IH]; simpl.
  - destruct (qeqb x d); reflexivity.
  - destruct (qeqb_spec k x) as [->|N]; simpl.
    + destruct (qeqb_spec x d); lia.
    + rewrite IH. destruct (qeqb_spec k d) as [->|N']; [|lia]. destruct (qeqb_spec x d); [congruence|lia].
Qed.
Lemma keys_add d x m : In d (map fst (count_add x m)) <-> d = x \/ In d (map fst m).
Proof.
  induction m as [|[k n] m IH]; simpl.
  - split; intros [H|[]]; auto.
  - destruct (qeqb_spec k x) as [->|N]; simpl; [|rewrite IH]; split; intros [H|H]; auto; destruct H; auto.
Qed.
Lemma nodup_add x m : NoDup (map fst m) -> NoDup (map fst (count_add x m)).
Proof.
  induction m as [|[k n] m IH]; simpl; intros H; [constructor; [intros []|constructor]|].
  inversion H as [|? ? H1 H2]; subst. destruct (qeqb_spec k x) as [->|N]; simpl; [constructor; assumption|].
  constructor; [|apply IH; exact H2]. rewrite keys_add. intros [E|E]; congruence.
Qed.
Lemma count_all_spec ds : forall m, NoDup (map fst m) ->
  let m' := fold_left (fun m d => count_add d m) ds m in
  NoDup (map fst m') /\ (forall d, In d (map fst m') <-> In d ds \/ In d (map fst m)) /\ (forall d, cget d m' = cget d m + occurrences d ds).
Proof.
  induction ds as [|x ds IH]; intros m N; simpl.
  - split; [exact N|split; [intros d; split; [auto|intros [[]|H]; exact H]|intros d; lia]].
  - destruct (IH (count_add x m) (nodup_add x m N)) as (A & B & C). split; [exact A|split].
    + intros d. rewrite B, keys_add. split; intros [H|H]; auto; destruct H; auto.
    + intros d. rewrite C, cget_add. lia.
Qed.
Lemma count_all_nodup ds : NoDup (map fst (count_all ds)).
Proof. apply (count_all_spec ds []); constructor. Qed.
Lemma count_all_keys ds d : In d (map fst (count_all ds)) <-> In d ds.
Proof. destruct (count_all_spec ds []) as (_ & B & _); [constructor|]. unfold count_all. rewrite B. simpl. tauto. Qed.
Lemma count_all_get ds d : cget d (count_all ds) = occurrences d ds.
Proof. destruct (count_all_spec ds []) as (_ & _ & C); [constructor|]. unfold count_all. rewrite C. reflexivity. Qed.
Lemma cget_In d n m : NoDup (map fst m) -> In (d, n) m -> cget d m = n.
Proof.
  induction m as [|[k c] m IH]; intros N H; [destruct H|]. inversion N as [|? ? N1 N2]; subst. simpl. destruct H as [E|H].
  - injection E as -> ->. rewrite qeqb_refl. reflexivity.
  - destruct (qeqb_spec k d) as [->|]; [|apply IH; assumption]. exfalso. apply N1. change d with (fst (d, n)). apply in_map. exact H.
Qed.
Lemma cget_out d m : ~ In d (map fst m) -> cget d m = 0.
Proof. induction m as [|[k c] m IH]; intros H; [reflexivity|]. simpl. destruct (qeqb_spec k d) as [->|]; [exfalso; apply H; left; reflexivity|apply IH; intros K; apply H; right; exact K]. Qed.
Lemma occurrences_pos d l : In d l <-> 0 < occurrences d l.
Proof.
  induction l as [|x l IH]; simpl; [split; [intros []|lia]|]. destruct (qeqb_spec x d) as [->|N]; [split; [lia|auto]|]. rewrite <- IH. split; [intros [E|H]; [congruence|exact H]|auto].
Qed.
Lemma occurrences_perm d l l' : Permutation l l' -> occurrences d l = occurrences d l'.
Proof. induction 1; simpl; lia. Qed.

Lemma most_common_spec m : (forall kv, In kv m -> 0 < snd kv) -> m <> [] ->
  exists d n, most_common m = (Some d, n) /\ In (d, n) m /\ (forall kv, In kv m -> snd kv <= n).
Proof.
  intros Hp Hm. unfold most_common.
  assert (G : forall (m : counts) (acc : option Qc * nat), (forall kv, In kv m -> 0 < snd kv) -> (exists d n, acc = (Some d, n) /\ 0 < n) \/ (acc = (None, 0) /\ m <> []) ->
    exists d n, fold_left (fun acc kv => if Nat.ltb (snd acc) (snd kv) then (Some (fst kv), snd kv) else acc) m acc = (Some d, n) /\
      (In (d, n) m \/ acc = (Some d, n)) /\ (forall kv, In kv m -> snd kv <= n) /\ snd acc <= n).
  { clear. induction m as [|[k c] m IH]; intros acc Hp Ha.
    - destruct Ha as [(d & n & -> & P)|[_ F]]; [|congruence]. exists d, n. simpl. repeat split; auto. intros ? [].
    - simpl. assert (Hp' : forall kv, In kv m -> 0 < snd kv) by (intros; apply Hp; right; assumption).
      assert (Pc : 0 < c) by (apply (Hp (k, c)); left; reflexivity).
      destruct (Nat.ltb_spec (snd acc) c) as [L|L].
      + destruct (IH (Some k, c) Hp') as (d & n & E & A & B & C); [left; exists k, c; auto|]. exists d, n. split; [exact E|]. split; [|split].
        * left. destruct A as [A|A]; [right; exact A|]. injection A as -> ->. left; reflexivity.
        * intros kv [<- | H]; [exact C|apply B; exact H].
        * simpl in C. lia.
      + assert (Ha' : exists d n, acc = (Some d, n) /\ 0 < n) by (destruct Ha as [Ha|[Ha _]]; [exact Ha|rewrite Ha in L; simpl in L; lia]).
        destruct (IH acc Hp' (or_introl Ha')) as (d & n & E & A & B & C). exists d, n. split; [exact E|]. split; [|split].
        * destruct A as [A|A]; [left; right; exact A|right; exact A].
        * intros kv [<- | H]; [simpl; lia|apply B; exact H].
        * exact C. }
  destruct (G m (None, 0) Hp (or_intror (conj eq_refl Hm))) as (d & n & E & [A|A] & B & _); [|discriminate]. exists d, n. auto.
Qed.
Lemma second_bound best m n : (forall kv, In kv m -> snd kv <= n) -> second_common best m <= n.
Proof.
  unfold second_common. intros H. assert (G : forall a, a <= n -> fold_left (fun acc kv => if match best with Some d => qeqb (fst kv) d | None => false end then acc
                           else if Nat.ltb acc (snd kv) then snd kv else acc) m a <= n).
  { induction m as [|kv m IH]; intros a Ha; [exact Ha|]. simpl. apply IH; [intros; apply H; right; assumption|].
    specialize (H kv (or_introl eq_refl)). destruct (match best with Some d => qeqb (fst kv) d | None => false end); [exact Ha|]. destruct (Nat.ltb a (snd kv)); assumption. }
  apply G. lia.
Qed.

(* the ratio test, on naturals *)
Lemma qn_this n : (this (qn n) == inject_Z (Z.of_nat n))%Q.
Proof. apply this_qz. Qed.
Lemma qn_le a b : Qcle (qn a) (qn b) <-> a <= b.
Proof. unfold Qcle. rewrite !qn_this, <- Zle_Qle. lia. Qed.
Lemma almost_equal_spec a n : 0 < n -> a <= n -> almost_equal a n = Ok (Nat.ltb (19 * n) (20 * a)).
Proof.
  intros Hn Ha. unfold almost_equal, qdiv. pose proof (qn_pos n Hn) as P.
  assert (N0 : qn n <> q0) by (intros E; rewrite E in P; apply Qclt_not_eq in P; apply P; reflexivity).
  rewrite qeqb_false by exact N0. cbn [bind]. f_equal.
  assert (E : Qcmult (Qcdiv (qn a) (qn n)) (qn n) = qn a) by (field; exact N0).
  generalize dependent (Qcdiv (qn a) (qn n)). intros r E.
  pose proof (proj2 (qn_le a n) Ha) as Ha'.
  assert (L1 : qleb r (qfrac 21 20) = true).
  { apply qleb_true. destruct (Qclt_le_dec (qfrac 21 20) r) as [K|K]; [|exact K]. exfalso. clear N0. generalize dependent (qn n). generalize dependent (qn a). intros. qnra. }
  rewrite L1, andb_true_r.
  assert (A : Qcmult (qz 20) (qn a) = qn (20 * a)) by (apply qc_eq; rewrite this_mul_cl, !qn_this, Nat2Z.inj_mul, inject_Z_mult; reflexivity).
  assert (B : Qcmult (qz 19) (qn n) = qn (19 * n)) by (apply qc_eq; rewrite this_mul_cl, !qn_this, Nat2Z.inj_mul, inject_Z_mult; reflexivity).
  destruct (qltb_spec (qfrac 19 20) r) as [K|K]; destruct (Nat.ltb_spec (19 * n) (20 * a)) as [L|L]; try reflexivity; exfalso.
  - apply (proj2 (qn_le _ _)) in L. rewrite <- A, <- B in L. clear - K L E P. generalize dependent (qn n). generalize dependent (qn a). intros. qnra.
  - assert (L' : ~ Qcle (qn (20 * a)) (qn (19 * n))) by (rewrite qn_le; lia). rewrite <- A, <- B in L'. clear - K L' E P. apply Qcnot_le_lt in L'. generalize dependent (qn n). generalize dependent (qn a). intros. qnra.
Qed.

(* ---- rounding ---- *)
Lemma qround_qz z : qround (qz z) = z.
Proof.
  unfold qround. assert (E : this (qz z) = inject_Z z) by (apply (Qred_identity (inject_Z z)); apply Z.gcd_1_r).
  rewrite E. cbn [inject_Z Qnum Qden]. rewrite Z.div_1_r, Z.mod_1_r. reflexivity.
Qed.
Lemma distinct_perm l k1 k2 : distinct_values l k1 -> distinct_values l k2 -> Permutation k1 k2.
Proof. intros [N1 H1] [N2 H2]. apply NoDup_Permutation; [exact N1|exact N2|]. intros x. rewrite H1, H2. tauto. Qed.
Lemma count_keys_distinct ds : distinct_values ds (map fst (count_all ds)).
Proof. split; [apply count_all_nodup|]. intros x. apply count_all_keys. Qed.
Lemma counts_pos ds kv : In kv (count_all ds) -> 0 < snd kv.
Proof.
  destruct kv as [d n]. intros H. simpl. rewrite <- (cget_In d n (count_all ds) (count_all_nodup ds) H), count_all_get. apply occurrences_pos. apply count_all_keys.
  change d with (fst (d, n)). apply in_map. exact H.
Qed.

(* ---- diffs ---- *)
Lemma diffs_spacings : forall l, l <> [] -> spacings l (diffs_of l).
Proof.
  induction l as [|a l IH]; intros H; [congruence|]. destruct l as [|b l]; [split; [reflexivity|intros i ? ? ? _ ? Hd; destruct i; discriminate]|].
  destruct IH as [I1 I2]; [discriminate|]. change (diffs_of (a :: b :: l)) with (Qcminus b a :: diffs_of (b :: l)).
  split; [simpl in *; lia|]. intros i x y d Hx Hy Hd. destruct i as [|i]; [simpl in *; congruence|]. apply (I2 i x y d Hx Hy Hd).
Qed.
Lemma spacings_unique l ds ds' : spacings l ds -> spacings l ds' -> ds = ds'.
Proof.
  intros [A B] [A' B']. apply nth_ext with (d := q0) (d' := q0); [lia|]. intros n Hn.
  destruct (nth_error ds n) as [x|] eqn:E; [|apply nth_error_None in E; lia].
  destruct (nth_error ds' n) as [y|] eqn:E'; [|apply nth_error_None in E'; lia].
  rewrite (nth_error_nth ds n q0 E), (nth_error_nth ds' n q0 E').
  destruct (nth_error l n) as [a|] eqn:Ea; [|apply nth_error_None in Ea; lia].
  destruct (nth_error l (S n)) as [b|] eqn:Eb; [|apply nth_error_None in Eb; lia].
  rewrite (B n a b x Ea Eb E), (B' n a b y Ea Eb E'). reflexivity.
Qed.
Lemma distinct_length l ks : distinct_values l ks -> length ks <= length l.
Proof. intros [N H]. apply NoDup_incl_length; [exact N|]. intros x Hx. apply H. exact Hx. Qed.

(* the result of the last phase on the counts of some values *)
Definition verdict (m : counts) : result (option Qc * Qc) :=
  let b := most_common m in
  if Nat.eqb (length m) 1 then Ok (fst b, q1)
  else do r <- qdiv (qn (second_common (fst b) m)) (qn (snd b)); Ok (fst b, Qcminus q1 r).
Lemma verdict_spec xs : xs <> [] -> exists d c, verdict (count_all xs) = Ok (Some d, c) /\ In d xs /\
  (forall x, occurrences x xs <= occurrences d xs) /\ Qcle q0 c /\ Qcle c q1 /\ (length (count_all xs) = 1 -> c = q1).
Proof.
  intros Hx. destruct (most_common_spec (count_all xs)) as (d & n & E & Hin & Hmax).
  - apply counts_pos.
  - intros F. destruct xs as [|x xs]; [congruence|]. assert (K : In x (map fst (count_all (x :: xs)))) by (apply count_all_keys; left; reflexivity). rewrite F in K. destruct K.
  - assert (On : occurrences d xs = n) by (rewrite <- count_all_get; apply cget_In; [apply count_all_nodup|exact Hin]).
    assert (Din : In d xs) by (apply count_all_keys; change d with (fst (d, n)); apply in_map; exact Hin).
    assert (Hocc : forall x, occurrences x xs <= occurrences d xs).
    { intros x. rewrite On. destruct (in_dec Qc_eq_dec x (map fst (count_all xs))) as [I|I].
      - apply in_map_iff in I. destruct I as ([k c] & <- & Hc). simpl. rewrite <- count_all_get, (cget_In k c _ (count_all_nodup xs) Hc). apply (Hmax _ Hc).
      - rewrite <- count_all_get, cget_out by exact I. lia. }
    unfold verdict. rewrite E. cbn [fst snd]. destruct (Nat.eqb_spec (length (count_all xs)) 1) as [L|L].
    + exists d, q1. split; [reflexivity|]. split; [exact Din|]. split; [exact Hocc|]. split; [|split; [apply Qcle_refl|reflexivity]]. qlra.
    + assert (Pn : 0 < n) by (rewrite <- On; apply occurrences_pos; exact Din). pose proof (qn_pos n Pn) as P.
      assert (N0 : qn n <> q0) by (intros K; rewrite K in P; apply Qclt_not_eq in P; apply P; reflexivity).
      unfold qdiv. rewrite qeqb_false by exact N0. cbn [bind]. eexists d, _. split; [reflexivity|]. split; [exact Din|]. split; [exact Hocc|].
      assert (Hs : second_common (Some d) (count_all xs) <= n) by (apply second_bound; exact Hmax).
      apply (proj2 (qn_le _ _)) in Hs. assert (H0 : Qcle q0 (qn (second_common (Some d) (count_all xs)))) by (change q0 with (qn 0); apply qn_le; lia).
      assert (B : Qcle q0 (Qcdiv (qn (second_common (Some d) (count_all xs))) (qn n)) /\ Qcle (Qcdiv (qn (second_common (Some d) (count_all xs))) (qn n)) q1).
      { assert (F : Qcmult (Qcdiv (qn (second_common (Some d) (count_all xs))) (qn n)) (qn n) = qn (second_common (Some d) (count_all xs))) by (field; exact N0).
        generalize dependent (Qcdiv (qn (second_common (Some d) (count_all xs))) (qn n)). generalize dependent (qn (second_common (Some d) (count_all xs))). generalize dependent (qn n). intros. split; qnra. }
      destruct B as [B1 B2]. generalize dependent (Qcdiv (qn (second_common (Some d) (count_all xs))) (qn n)). intros r B1 B2. split; [qlra|split; [qlra|intros F; congruence]].
Qed.

Lemma detect_unfold fuel l : detect_interval fuel l = match spread_loop fuel (length l) (count_all (diffs_of (map i_t l))) with
  | None => None | Some (Err x) => Some (Err x) | Some (Ok m) => Some (verdict m) end.
Proof.
  unfold detect_interval, verdict. destruct (spread_loop _ _ _) as [[m|]|]; [|reflexivity|reflexivity]. cbv zeta. destruct (Nat.eqb (length m) 1); reflexivity.
Qed.
Lemma diffs_eq l ds : spacings (times l) ds -> diffs_of (map i_t l) = ds.
Proof.
  intros H. apply (spacings_unique (times l)); [|exact H]. apply diffs_spacings. destruct H as [H _]. intros F. unfold times in *. rewrite F in H. discriminate.
Qed.
Lemma keys_length ds ks : distinct_values ds ks -> length (count_all ds) = length ks.
Proof. intros H. rewrite <- (map_length fst). apply Permutation_length. apply (distinct_perm ds); [apply count_keys_distinct|exact H]. Qed.

(* no rounding *)
Lemma detect_plain fuel l ds ks : spacings (times l) ds -> ds <> [] -> distinct_values ds ks -> 20 * length ks <= 19 * length l ->
  detect_interval fuel l = Some (verdict (count_all ds)).
Proof.
  intros Hs Hn Hk Hc. rewrite detect_unfold, (diffs_eq l ds Hs). pose proof (distinct_length ds ks Hk) as L.
  destruct Hs as [Hl _]. unfold times in Hl. rewrite map_length in Hl.
  assert (E : almost_equal (length (count_all ds)) (length l) = Ok false).
  { rewrite (keys_length ds ks Hk), almost_equal_spec by lia. f_equal. apply Nat.ltb_ge. exact Hc. }
  destruct fuel; cbn [spread_loop]; rewrite E; reflexivity.
Qed.

Lemma this_minus x z : (this (Qcminus x (qz z)) == this x - inject_Z z)%Q.
Proof.
  unfold Qcminus, Qcplus, Qcopp, qz, Q2Qc, this. rewrite !Qred_correct. reflexivity.
Qed.
Lemma below_half x z : Qclt (Qcminus x (qz z)) (qfrac 1 2) <-> (2 * Qnum (this x) < (2 * z + 1) * Zpos (Qden (this x)))%Z.
Proof.
  unfold Qclt. rewrite this_minus. unfold qfrac, Q2Qc, this at 2. rewrite Qred_correct.
  destruct (this x) as [n d]. unfold Qlt, Qminus, Qplus, Qopp, inject_Z. cbn [Qnum Qden]. rewrite Pos.mul_1_r. split; intros; nia.
Qed.
Lemma above_half x z : Qclt (Qcopp (qfrac 1 2)) (Qcminus x (qz z)) <-> ((2 * z - 1) * Zpos (Qden (this x)) < 2 * Qnum (this x))%Z.
Proof.
  unfold Qclt. rewrite this_minus. assert (E : (this (Qcopp (qfrac 1 2)) == (-1) # 2)%Q) by (vm_compute; reflexivity). rewrite E.
  destruct (this x) as [n d]. unfold Qlt, Qminus, Qplus, Qopp, inject_Z. cbn [Qnum Qden]. rewrite Pos.mul_1_r. split; intros; nia.
Qed.
Lemma at_half x z : Qcminus x (qz z) = qfrac 1 2 <-> (2 * Qnum (this x) = (2 * z + 1) * Zpos (Qden (this x)))%Z.
Proof.
  assert (E : Qcminus x (qz z) = qfrac 1 2 <-> (this x - inject_Z z == 1 # 2)%Q).
  { split; [intros E; rewrite <- this_minus, E; apply Qred_correct|intros E; apply Qc_is_canon; rewrite this_minus, E; symmetry; apply Qred_correct]. }
  rewrite E. destruct (this x) as [n d]. unfold Qeq, Qminus, Qplus, Qopp, inject_Z. cbn [Qnum Qden]. rewrite Pos.mul_1_r. split; intros; nia.
Qed.
Lemma at_minus_half x z : Qcminus x (qz z) = Qcopp (qfrac 1 2) <-> (2 * Qnum (this x) = (2 * z - 1) * Zpos (Qden (this x)))%Z.
Proof.
  assert (E : Qcminus x (qz z) = Qcopp (qfrac 1 2) <-> (this x - inject_Z z == (-1) # 2)%Q).
  { split; [intros E; rewrite <- this_minus, E; vm_compute; reflexivity|intros E; apply Qc_is_canon; rewrite this_minus, E; vm_compute; reflexivity]. }
  rewrite E. destruct (this x) as [n d]. unfold Qeq, Qminus, Qplus, Qopp, inject_Z. cbn [Qnum Qden]. rewrite Pos.mul_1_r. split; intros; nia.
Qed.
Lemma nearest_even_Z x z : nearest_even x z <->
  (let n := Qnum (this x) in let d := Zpos (Qden (this x)) in
   ((2 * z - 1) * d < 2 * n < (2 * z + 1) * d \/ (2 * n = (2 * z + 1) * d \/ 2 * n = (2 * z - 1) * d) /\ Z.even z = true)%Z).
Proof.
  cbv zeta. unfold nearest_even. rewrite <- below_half, <- above_half, <- at_half, <- at_minus_half.
  assert (P : Qclt q0 (qfrac 1 2)) by (vm_compute; reflexivity). revert P. generalize (qfrac 1 2) (Qcminus x (qz z)). intros h y P.
  unfold qabs. change (Q2Qc 0) with 0%Qc. rewrite q0_eq in P. destruct (qltb_spec y 0%Qc) as [E|E].
  - split.
    + intros [H|[H H2]]; [left; split; qlra|right; split; [right; rewrite <- H; ring|exact H2]].
    + intros [[H H2]|[[H|H] H2]]; [left; qlra|exfalso; subst y; qlra|right; split; [rewrite H; ring|exact H2]].
  - split.
    + intros [H|[H H2]]; [left; split; qlra|right; split; [left; exact H|exact H2]].
    + intros [[H H2]|[[H|H] H2]]; [left; qlra|right; auto|exfalso; subst y; qlra].
Qed.
Lemma qround_nearest x : nearest_even x (qround x).
Proof.
  apply nearest_even_Z. cbv zeta. unfold qround. set (n := Qnum (this x)). set (d := Zpos (Qden (this x))).
  assert (D : (0 < d)%Z) by (unfold d; lia). pose proof (Z.div_mod n d ltac:(lia)) as E. pose proof (Z.mod_pos_bound n d D) as B.
  set (f := (n / d)%Z) in *. set (r := (n mod d)%Z) in *. destruct (Z.compare_spec (2 * r) d) as [C|C|C].
  - right. destruct (Z.even f) eqn:F; [split; [left; nia|exact F]|split; [right; nia|]]. rewrite Z.even_add, F. reflexivity.
  - left. nia.
  - left. nia.
Qed.
Lemma nearest_even_unique x z z' : nearest_even x z -> nearest_even x z' -> z = z'.
Proof.
  rewrite !nearest_even_Z. cbv zeta. set (n := Qnum (this x)). set (d := Zpos (Qden (this x))). assert (D : (0 < d)%Z) by (unfold d; lia).
  intros H H'. assert (K : (z = z' \/ (z = z' + 1 /\ 2 * n = (2 * z - 1) * d /\ 2 * n = (2 * z' + 1) * d) \/ (z' = z + 1 /\ 2 * n = (2 * z' - 1) * d /\ 2 * n = (2 * z + 1) * d))%Z).
  { assert (((2 * z - 1) * d <= 2 * n <= (2 * z + 1) * d)%Z) by (destruct H as [?|[[?|?] ?]]; nia).
    assert (((2 * z' - 1) * d <= 2 * n <= (2 * z' + 1) * d)%Z) by (destruct H' as [?|[[?|?] ?]]; nia).
    assert (z <= z' + 1)%Z by nia. assert (z' <= z + 1)%Z by nia.
    assert (z = z' \/ z = z' + 1 \/ z' = z + 1)%Z as [?|[?|?]] by lia; [left; assumption|right; left; subst; nia|right; right; subst; nia]. }
  destruct K as [K|[(K & A & B)|(K & A & B)]]; [exact K| |]; exfalso.
  - destruct H as [H|[_ H]]; [nia|]. destruct H' as [H'|[_ H']]; [nia|]. rewrite K, Z.even_add, H' in H. discriminate.
  - destruct H as [H|[_ H]]; [nia|]. destruct H' as [H'|[_ H']]; [nia|]. rewrite K, Z.even_add, H in H'. discriminate.
Qed.
Lemma nearest_round ks zs : Forall2 nearest_even ks zs -> map qz zs = map (fun k => qz (qround k)) ks.
Proof.
  induction 1 as [|k z ks zs H _ IH]; [reflexivity|]. cbn [map]. rewrite IH, (nearest_even_unique k z (qround k) H (qround_nearest k)). reflexivity.
Qed.
Definition rounded (ks : list Qc) : list Qc := map (fun k => qz (qround k)) ks.
Lemma rounded_counts m : count_all (map (fun kv : Qc * nat => qz (qround (fst kv))) m) = count_all (rounded (map fst m)).
Proof. unfold rounded. rewrite map_map. reflexivity. Qed.
(* one rounding is enough *)
Lemma detect_rounded fuel l ds ks rs : spacings (times l) ds -> ds <> [] -> distinct_values ds ks -> 19 * length l < 20 * length ks ->
  distinct_values (rounded ks) rs -> 20 * length rs <= 19 * length l ->
  exists ks', Permutation ks ks' /\ detect_interval (S fuel) l = Some (verdict (count_all (rounded ks'))).
Proof.
  intros Hs Hn Hk Hc Hr Hrc. exists (map fst (count_all ds)). split; [apply (distinct_perm ds); [exact Hk|apply count_keys_distinct]|].
  rewrite detect_unfold, (diffs_eq l ds Hs). pose proof (distinct_length ds ks Hk) as L.
  destruct Hs as [Hl _]. unfold times in Hl. rewrite map_length in Hl. cbn [spread_loop].
  rewrite (keys_length ds ks Hk), almost_equal_spec by lia. rewrite (proj2 (Nat.ltb_lt _ _)) by exact Hc.
  rewrite rounded_counts.
  assert (Hr' : distinct_values (rounded (map fst (count_all ds))) rs).
  { split; [apply Hr|]. intros x. destruct Hr as [_ Hr]. rewrite Hr. unfold rounded. rewrite !in_map_iff. split; intros (k & E & K); exists k; (split; [exact E|]); [apply count_all_keys, (proj2 Hk), K|apply (proj2 Hk), count_all_keys, K]. }
  pose proof (distinct_length _ _ Hr') as L'. unfold rounded in L' at 1. rewrite map_length, map_length, (keys_length ds ks Hk) in L'.
  assert (E : almost_equal (length (count_all (rounded (map fst (count_all ds))))) (length l) = Ok false).
  { rewrite (keys_length _ rs Hr'), almost_equal_spec by lia. f_equal. apply Nat.ltb_ge. exact Hrc. }
  destruct fuel; cbn [spread_loop]; rewrite E; reflexivity.
Qed.
(* otherwise never *)
Lemma loop_forever n : forall fuel (m : counts), (forall k, In k (map fst m) -> exists z, k = qz z) -> NoDup (map fst m) ->
  0 < n -> length m <= n -> 19 * n < 20 * length m -> spread_loop fuel n m = None.
Proof.
  induction fuel as [|fuel IH]; intros m Hz N Hn Hl Hc; cbn [spread_loop]; rewrite almost_equal_spec by assumption; rewrite (proj2 (Nat.ltb_lt _ _)) by exact Hc; [reflexivity|].
  rewrite rounded_counts. assert (E : rounded (map fst m) = map fst m).
  { unfold rounded. rewrite <- (map_id (map fst m)) at 2. apply map_ext_in. intros k Hk. destruct (Hz k Hk) as [z ->]. rewrite qround_qz. reflexivity. }
  rewrite E. assert (Len : length (count_all (map fst m)) = length m).
  { rewrite (keys_length (map fst m) (map fst m)); [apply map_length|]. split; [exact N|tauto]. }
  apply IH; [|apply count_all_nodup|exact Hn|lia|lia]. intros k Hk. apply Hz. apply count_all_keys. exact Hk.
Qed.
Lemma detect_never l ds ks rs : spacings (times l) ds -> ds <> [] -> distinct_values ds ks -> 19 * length l < 20 * length ks ->
  distinct_values (rounded ks) rs -> 19 * length l < 20 * length rs -> forall fuel, detect_interval fuel l = None.
Proof.
  intros Hs Hn Hk Hc Hr Hrc fuel. rewrite detect_unfold, (diffs_eq l ds Hs). pose proof (distinct_length ds ks Hk) as L.
  destruct Hs as [Hl _]. unfold times in Hl. rewrite map_length in Hl.
  assert (Hr' : distinct_values (rounded (map fst (count_all ds))) rs).
  { split; [apply Hr|]. intros x. destruct Hr as [_ Hr]. rewrite Hr. unfold rounded. rewrite !in_map_iff. split; intros (k & E & K); exists k; (split; [exact E|]); [apply count_all_keys, (proj2 Hk), K|apply (proj2 Hk), count_all_keys, K]. }
  pose proof (distinct_length _ _ Hr') as L'. unfold rounded in L' at 1. rewrite map_length, map_length, (keys_length ds ks Hk) in L'.
  assert (A : almost_equal (length (count_all ds)) (length l) = Ok true).
  { rewrite (keys_length ds ks Hk), almost_equal_spec by lia. f_equal. apply Nat.ltb_lt. exact Hc. }
  destruct fuel as [|fuel]; cbn [spread_loop]; rewrite A; [reflexivity|].
  rewrite rounded_counts, loop_forever; [reflexivity| |apply count_all_nodup|lia|rewrite (keys_length _ rs Hr'); lia|rewrite (keys_length _ rs Hr'); lia].
  intros k Hk'. rewrite count_all_keys in Hk'. unfold rounded in Hk'. apply in_map_iff in Hk'. destruct Hk' as (x & <- & _). eexists; reflexivity.
Qed.
