(* ReconProofs3.v -- proofs: periodicity index (C59) and periodic averages (C60, C55). *)
From Verif Require Import BaseLemmas DictLemmas PropTactics.
From Verif Require Import SeriesProofs2 SeriesProofs3 SeriesProofs4 AccessProofs AccessProofs2 OpsProofs OpsProofs2 OpsProofs3 InterpProofs TransformProofs5 ReconProofs ReconProofs2.

(* ---------------- truncation ---------------- *)
Lemma qz_inj a b : qz a = qz b -> a = b.
Proof. intros H. assert (L : (a <= b)%Z) by (apply qz_le_iff; rewrite H; apply Qcle_refl). assert (L' : (b <= a)%Z) by (apply qz_le_iff; rewrite H; apply Qcle_refl). lia. Qed.
Lemma qz_plus a b : qz (a + b) = Qcplus (qz a) (qz b).
Proof. unfold qz. apply Qc_is_canon. unfold Qcplus, Q2Qc. cbn [this]. rewrite !Qred_correct. rewrite inject_Z_plus. reflexivity. Qed.
Lemma qz_mult a b : qz (a * b) = Qcmult (qz a) (qz b).
Proof. unfold qz. apply Qc_is_canon. unfold Qcmult, Q2Qc. cbn [this]. rewrite !Qred_correct. rewrite inject_Z_mult. reflexivity. Qed.
Lemma qtrunc_floor x n : Qcle (qz n) x -> Qclt x (qz (n + 1)) -> (0 <= n)%Z \/ x = qz n -> qtrunc x = n.
Proof.
  intros L1 L2 C. unfold qtrunc. destruct C as [C| ->].
  - unfold Qcle, Qclt, qz, Q2Qc in *. cbn [this] in *. rewrite Qred_correct in L1, L2. destruct (this x) as [a b]. unfold Qle, Qlt, inject_Z in *. cbn in *.
    rewrite Z.quot_div_nonneg by nia. symmetry. apply (Z.div_unique a (Zpos b) n (a - n * Zpos b)); [left; nia|ring].
  - unfold qz, Q2Qc. cbn [this]. assert (E : Qred (inject_Z n) = inject_Z n) by (apply Qred_identity; cbn; apply Z.gcd_1_r). rewrite E. cbn. apply Z.quot_1_r.
Qed.
Lemma grid_trunc o d t n : on_grid o d t n -> qtrunc (Qcdiv t d) = n.
Proof.
  intros (O1 & O2 & -> & C). assert (D : Qclt q0 d) by (eapply Qcle_lt_trans; eassumption). assert (Dn : d <> q0) by (intros E; rewrite E in D; apply (Qclt_not_eq _ _ D); reflexivity).
  assert (E : Qcdiv (Qcplus o (Qcmult (qz n) d)) d = Qcplus (Qcdiv o d) (qz n)) by (field; exact Dn). rewrite E.
  assert (M : Qcmult (Qcdiv o d) d = o) by (field; exact Dn).
  assert (U1 : Qcle q0 (Qcdiv o d)).
  { destruct (Qclt_le_dec (Qcdiv o d) q0) as [L|L]; [|exact L]. exfalso. generalize dependent (Qcdiv o d). intros z _ M L. qnra. }
  assert (U2 : Qclt (Qcdiv o d) q1).
  { destruct (Qclt_le_dec (Qcdiv o d) q1) as [L|L]; [exact L|]. exfalso. generalize dependent (Qcdiv o d). intros z _ M _ L. rewrite q1_eq in L. qnra. }
  apply qtrunc_floor.
  - clear - U1. qlra.
  - assert (Q : qz (n + 1) = Qcplus (qz n) q1) by (unfold q1; apply qz_plus). rewrite Q. clear - U2. qlra.
  - destruct C as [-> |C]; [right|left; exact C]. assert (Z : Qcdiv q0 d = q0) by (rewrite q0_eq; field; exact Dn). rewrite Z, q0_eq. ring.
Qed.

Lemma index_in_range c dst tz t r p da k : periodicity_index c dst tz t r p da = Ok k -> (0 < p)%Z -> (0 <= k < p)%Z.
Proof.
  unfold periodicity_index, pmod. destruct (resolution_s c r t) as [rs|]; cbn; [|discriminate]. intros H Hp.
  destruct (Z.eqb _ 0).
  - destruct (qdiv t rs) as [q|]; cbn in H; [|discriminate]. destruct (Z.eqb_spec p 0); [lia|]. injection H as <-. apply Z.mod_pos_bound. exact Hp.
  - destruct (_ || _)%bool; [discriminate|]. destruct (qltb _ _); [discriminate|]. destruct (qdiv _ rs) as [q|]; cbn in H; [|discriminate]. destruct (Z.eqb_spec p 0); [lia|]. injection H as <-. apply Z.mod_pos_bound. exact Hp.
Qed.
Lemma index_on_grid c dst tz o d t n p : on_grid o d t n -> (0 < p)%Z -> periodicity_index c dst tz t (Some (RUnit (UPhys d))) p false = Ok (n mod p)%Z.
Proof.
  intros G Hp. unfold periodicity_index, resolution_s, unit_seconds, pmod, qdiv. cbn [bind Z.eqb]. destruct G as (O1 & O2 & E & C) eqn:EG. clear EG.
  assert (D : d <> q0) by (intros X; subst d; apply (Qcle_not_lt _ _ O1); exact O2). rewrite qeqb_false by exact D. cbn [bind].
  rewrite (grid_trunc o d t n) by (repeat split; assumption). destruct (Z.eqb_spec p 0); [lia|reflexivity].
Qed.

(* ---------------- averages of a periodic signal ---------------- *)
Lemma zget_zset {V} k k' (v : V) d : zget k (zset k' v d) = if Z.eqb k k' then Some v else zget k d.
Proof.
  induction d as [|[x w] d IH]; cbn; [reflexivity|]. destruct (Z.eqb_spec k' x) as [->|N]; cbn; [destruct (Z.eqb_spec k x); reflexivity|].
  destruct (Z.eqb_spec k x) as [->|M].
  - destruct (Z.eqb_spec x k'); [congruence|reflexivity].
  - exact IH.
Qed.
Lemma zget_averages k sums : zget k (averages_of sums) = match zget k sums with Some (t, n) => Some (Qcdiv t (qn n)) | None => None end.
Proof. induction sums as [|[x [t n]] r IH]; cbn; [reflexivity|]. destruct (Z.eqb k x); [reflexivity|exact IH]. Qed.

Lemma left_out_ok limit x : i_data x <> None -> loss_known x -> exists b, left_out limit x = Ok b /\ (b = false <-> included limit x).
Proof.
  intros D K. unfold left_out, included, loss_known in *. destruct limit as [l|]; [|exists false; split; [reflexivity|split; [discriminate|reflexivity]]].
  destruct (i_data x); [|contradiction]. destruct (dget "data_loss" (i_idx x)) as [[v|]|]; [|contradiction|exists false; split; [reflexivity|split; [discriminate|reflexivity]]].
  eexists. split; [reflexivity|]. destruct (qleb_spec l v) as [L|L]; split; intros H; try discriminate; try reflexivity.
  - exfalso. specialize (H l eq_refl v eq_refl). apply (Qclt_not_le _ _ H). exact L.
  - intros l' E v' E'. injection E as <-. injection E' as <-. destruct (Qclt_le_dec v l); [assumption|contradiction].
Qed.

Section Sums.
Variables (idx : item -> result Z) (limit : option Qc) (lb : string) (g : Z -> Qc).
Definition good (seen : list item) (acc : list (Z * (Qc * nat))) : Prop :=
  (forall k t n, zget k acc = Some (t, n) -> 0 < n /\ t = Qcmult (qn n) (g k)) /\
  (forall x k, In x seen -> included limit x -> idx x = Ok k -> zget k acc <> None) /\
  (forall k, zget k acc <> None -> exists x, In x seen /\ included limit x /\ idx x = Ok k).
Lemma sums_ok : forall l seen acc, good seen acc ->
  (forall x, In x l -> i_data x <> None /\ loss_known x /\ (included limit x -> exists k, idx x = Ok k /\ data_at x lb = Ok (g k))) ->
  exists acc', foldM (add_to_sums idx limit lb) l acc = Ok acc' /\ good (seen ++ l) acc'.
Proof.
  induction l as [|x l IH]; intros seen acc G H; [exists acc; rewrite app_nil_r; auto|]. cbn [foldM].
  destruct (H x (or_introl eq_refl)) as (Dx & Kx & Ix). destruct (left_out_ok limit x Dx Kx) as (b & Eb & Bb). unfold add_to_sums at 1. rewrite Eb. cbn [bind].
  replace (seen ++ x :: l) with ((seen ++ [x]) ++ l) by (rewrite <- app_assoc; reflexivity). destruct G as (G1 & G2 & G3). destruct b; cbn [bind].
  - apply IH; [|intros y Hy; apply H; right; exact Hy]. split; [exact G1|split].
    + intros y k Hy Iy Ey. apply in_app_iff in Hy. destruct Hy as [Hy|[<-|[]]]; [eauto|]. exfalso. apply Bb in Iy. discriminate.
    + intros k Hk. destruct (G3 k Hk) as (y & Y & Z). exists y. split; [apply in_app_iff; left; exact Y|exact Z].
  - assert (In' : included limit x) by (apply Bb; reflexivity). destruct (Ix In') as (k & Ek & Ev). rewrite Ek. cbn [bind]. rewrite Ev. cbn [bind].
    apply IH; [|intros y Hy; apply H; right; exact Hy]. split; [|split].
    + intros k' t n Hg. destruct (zget k acc) as [[t0 n0]|] eqn:E0; rewrite zget_zset in Hg; destruct (Z.eqb_spec k' k) as [->|N]; try (apply (G1 _ _ _ Hg)).
      * injection Hg as <- <-. destruct (G1 _ _ _ E0) as [P ->]. split; [lia|]. rewrite qn_S, q1_eq. ring.
      * injection Hg as <- <-. split; [lia|]. change (qn 1) with q1. rewrite q1_eq. ring.
    + intros y k' Hy Iy Ey. destruct (zget k acc) as [[t0 n0]|] eqn:E0; rewrite zget_zset; (destruct (Z.eqb_spec k' k) as [->|N]; [discriminate|]); apply in_app_iff in Hy; (destruct Hy as [Hy|[<-|[]]]; [eauto|congruence]).
    + intros k' Hk. assert (C : k' = k \/ zget k' acc <> None).
      { destruct (zget k acc) as [[t0 n0]|]; rewrite zget_zset in Hk; destruct (Z.eqb_spec k' k); auto. }
      destruct C as [-> |C]; [exists x; split; [apply in_app_iff; right; left; reflexivity|auto]|]. destruct (G3 k' C) as (y & Y & Z). exists y. split; [apply in_app_iff; left; exact Y|exact Z].
Qed.
Lemma averages_ok l : (forall x, In x l -> i_data x <> None /\ loss_known x /\ (included limit x -> exists k, idx x = Ok k /\ data_at x lb = Ok (g k))) ->
  exists sums, period_sums idx limit lb l = Ok sums /\
    (forall k v, zget k (averages_of sums) = Some v -> v = g k) /\
    (forall k, zget k (averages_of sums) <> None <-> exists x, In x l /\ included limit x /\ idx x = Ok k).
Proof.
  intros H. destruct (sums_ok l [] []) as (sums & E & G1 & G2 & G3); [|exact H|].
  - split; [discriminate|]. split; [intros x k []|]. intros k Hk. exfalso. apply Hk. reflexivity.
  - exists sums. split; [exact E|]. split.
    + intros k v. rewrite zget_averages. destruct (zget k sums) as [[t n]|] eqn:Z; [|discriminate]. intros X. injection X as <-. destruct (G1 _ _ _ Z) as [P ->].
      assert (N : qn n <> q0) by (intros C; pose proof (qn_pos n P) as Q; rewrite C in Q; apply (Qclt_not_eq _ _ Q); reflexivity). field. exact N.
    + intros k. rewrite zget_averages. split.
      * intros X. apply G3. destruct (zget k sums) as [[t n]|]; [discriminate|exfalso; apply X; reflexivity].
      * intros (x & Ix & Inc & Ek) X. apply (G2 x k Ix Inc Ek). destruct (zget k sums) as [[t n]|]; [discriminate|reflexivity].
Qed.
End Sums.

(* ---------------- a periodic signal on a grid ---------------- *)
Lemma periodic_nat f p d : periodic f p d -> forall n t, f (Qcplus t (Qcmult (qz (Z.of_nat n * p)) d)) = f t.
Proof.
  intros P. induction n as [|n IH]; intros t.
  - replace (Z.of_nat 0 * p)%Z with 0%Z by lia. f_equal. change (qz 0) with q0. rewrite q0_eq. ring.
  - rewrite <- (IH t). rewrite <- (P (Qcplus t (Qcmult (qz (Z.of_nat n * p)) d))). f_equal. replace (Z.of_nat (S n) * p)%Z with (Z.of_nat n * p + p)%Z by lia. rewrite qz_plus. ring.
Qed.
Lemma periodic_Z f p d : periodic f p d -> forall m t, f (Qcplus t (Qcmult (qz (m * p)) d)) = f t.
Proof.
  intros P m t. destruct (Z_le_gt_dec 0 m) as [L|L].
  - replace m with (Z.of_nat (Z.to_nat m)) by lia. apply (periodic_nat f p d P).
  - rewrite <- (periodic_nat f p d P (Z.to_nat (- m)) (Qcplus t (Qcmult (qz (m * p)) d))). f_equal.
    assert (E : qz (m * p) = Qcopp (qz (Z.of_nat (Z.to_nat (- m)) * p))).
    { assert (Z : Qcplus (qz (m * p)) (qz (Z.of_nat (Z.to_nat (- m)) * p)) = q0) by (rewrite <- qz_plus; unfold q0; f_equal; rewrite Z2Nat.id by lia; ring). rewrite q0_eq in Z. clear - Z. qlra. }
    rewrite E. ring.
Qed.
Lemma periodic_grid f p d o n : periodic f p d -> (0 < p)%Z -> f (Qcplus o (Qcmult (qz n) d)) = f (Qcplus o (Qcmult (qz (n mod p)) d)).
Proof.
  intros P Hp. rewrite <- (periodic_Z f p d P (n / p) (Qcplus o (Qcmult (qz (n mod p)) d))). f_equal.
  assert (E : n = (n / p * p + n mod p)%Z) by (rewrite Z.mul_comm; apply Z.div_mod; lia). rewrite E at 1. rewrite qz_plus. ring.
Qed.
