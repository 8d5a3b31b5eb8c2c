(* MakeProofs.v -- proofs for SpecMake.v (C87). *)
From Verif Require Export SpecMake ListsProofs.
From Verif Require Import BaseLemmas SeriesProofs2 PropTactics.

Lemma given_tz_iff zone tz z : given_tz zone tz = Ok z <-> asks_zone zone tz z.
Proof.
  unfold given_tz, asks_zone. destruct tz as [n|].
  - destruct (String.eqb_spec n "") as [->|Hn].
    + split.
      * intros [= <-]. left. split; [right; reflexivity|reflexivity].
      * intros [(_ & ->)|(n & z' & [= <-] & Hn & _)]; [reflexivity|congruence].
    + destruct (zone n) as [z'|er] eqn:E; cbn [bind].
      * split.
        -- intros [= <-]. right. exists n, z'. auto.
        -- intros [([H|H] & _)|(m & y & [= <-] & _ & Hy & ->)]; [discriminate|injection H as ->; congruence|congruence].
      * split; [discriminate|]. intros [([H|H] & _)|(m & y & [= <-] & _ & Hy & ->)]; [discriminate|injection H as ->; congruence|congruence].
  - split.
    + intros [= <-]. left. auto.
    + intros [(_ & ->)|(n & z' & H & _)]; [reflexivity|discriminate].
Qed.
Lemma asks_zone_unique zone tz z z' : asks_zone zone tz z -> asks_zone zone tz z' -> z = z'.
Proof. intros H H'. apply given_tz_iff in H. apply given_tz_iff in H'. congruence. Qed.

Lemma point_iff zone a t z : new_time_point zone a = Ok (t, z) <-> point_says zone a t z.
Proof.
  unfold new_time_point. split.
  - destruct (given_tz zone (pa_tz a)) as [tz0|er] eqn:G; [|discriminate]. cbn [bind]. apply given_tz_iff in G.
    unfold point_time. destruct (pa_t a) as [q|] eqn:Et.
    { cbn [bind]. destruct q; try discriminate. intros [= <- <-]. apply (says_t _ _ t0 tz0); assumption. }
    destruct (pa_dt a) as [d|] eqn:Ed.
    { destruct (d_epoch d) as [q|] eqn:Eq; [|discriminate]. cbn [bind]. intros [= <- <-].
      pose proof (says_dt zone a d q tz0 G Et Ed Eq) as H. destruct tz0 as [z0|]; [exact H|].
      destruct (d_tz d) as [w|]; [|exact H]. destruct (String.eqb_spec w "UTC") as [->|]; exact H. }
    destruct (pa_other a) eqn:Eo; [discriminate|]. destruct (pa_args a) as [|x [|y r]] eqn:Ea; [discriminate| |destruct x; discriminate].
    destruct x as [q|x|]; cbn [bind].
    + intros [= <- <-]. apply says_number; assumption.
    + destruct (is_point x) eqn:P; cbn [bind]; [|discriminate]. intros [= <- <-]. eapply says_point; eassumption.
    + discriminate.
  - intros H. destruct H as [q z G Et|d q z G Et Ed Eq|q z G Et Ed Eo Ea|x z G Et Ed Eo Ea P]; apply given_tz_iff in G; rewrite G; cbn [bind]; unfold point_time; rewrite Et.
    + reflexivity.
    + rewrite Ed, Eq. cbn [bind]. destruct z as [z|]; [reflexivity|]. destruct (d_tz d) as [w|]; [|reflexivity].
      destruct (String.eqb_spec w "UTC") as [->|]; reflexivity.
    + rewrite Ed, Eo, Ea. reflexivity.
    + rewrite Ed, Eo, Ea, P. reflexivity.
Qed.

(* the start of a slot *)
Definition slot_start (zone : string -> result string) (a : sargs) : result sarg :=
  do start <- match sa_t a with
              | Some t => do (q, z) <- new_time_point zone (mkPargs [] (Some t) None (sa_tz a) false); Ok (SItem (point_at q z))
              | None => Ok (sa_start a)
              end;
  match sa_dt a with
  | Some d => do (q, z) <- new_time_point zone (mkPargs [] None (Some d) (sa_tz a) false); Ok (SItem (point_at q z))
  | None => Ok start
  end.
Lemma point_says_zone zone a t z : point_says zone a t z -> exists z', asks_zone zone (pa_tz a) z'.
Proof. intros []; eexists; eassumption. Qed.
Lemma start_iff zone a p : (exists s, slot_start zone a = Ok s /\ time_point_arg s = Some p) <-> starts_at zone a p.
Proof.
  unfold slot_start. split.
  - intros (s & E & T). destruct (sa_t a) as [t|] eqn:Et.
    + destruct (new_time_point zone (mkPargs [] (Some t) None (sa_tz a) false)) as [[q z]|er] eqn:E1; [|discriminate]. cbn [bind] in E.
      assert (Ht : exists q, t = PNum q).
      { unfold new_time_point in E1. cbn in E1. destruct (given_tz zone (sa_tz a)); [|discriminate]. cbn in E1. destruct t as [q'|x|]; try discriminate. exists q'. reflexivity. }
      apply point_iff in E1.
      destruct (sa_dt a) as [d|] eqn:Ed.
      * destruct (new_time_point zone (mkPargs [] None (Some d) (sa_tz a) false)) as [[q' z']|er] eqn:E2; [|discriminate]. cbn [bind] in E.
        injection E as <-. cbn in T. injection T as <-. apply point_iff in E2. eapply start_dt; [eassumption|exact E2|reflexivity|].
        intros t' Ht'. rewrite Et in Ht'. injection Ht' as <-. exact Ht.
      * injection E as <-. cbn in T. injection T as <-. eapply start_t; eauto.
    + cbn [bind] in E. destruct (sa_dt a) as [d|] eqn:Ed.
      * destruct (new_time_point zone (mkPargs [] None (Some d) (sa_tz a) false)) as [[q' z']|er] eqn:E2; [|discriminate]. cbn [bind] in E.
        injection E as <-. cbn in T. injection T as <-. apply point_iff in E2. eapply start_dt; [eassumption|exact E2|reflexivity|].
        intros t' Ht'. congruence.
      * injection E as <-. destruct (sa_start a) as [|x|] eqn:Es; cbn in T; try discriminate. destruct (is_point x) eqn:P; [|discriminate]. injection T as ->.
        apply start_point; assumption.
  - intros H. destruct H as [d q z Ed Hd -> Ht|t q z Ed Et Hp ->|Ed Et Es P].
    + exists (SItem (point_at q z)). split; [|reflexivity]. pose proof (proj2 (point_iff _ _ _ _) Hd) as Hd'.
      destruct (sa_t a) as [t|] eqn:Et.
      * destruct (Ht t eq_refl) as (q' & ->). destruct (point_says_zone _ _ _ _ Hd) as (z' & Hz). cbn in Hz.
        assert (Hq : point_says zone (mkPargs [] (Some (PNum q')) None (sa_tz a) false) q' (or_utc z')) by (apply says_t; [exact Hz|reflexivity]).
        apply point_iff in Hq. rewrite Hq. cbn [bind]. rewrite Ed, Hd'. reflexivity.
      * cbn [bind]. rewrite Ed, Hd'. reflexivity.
    + exists (SItem (point_at q z)). split; [|reflexivity]. apply point_iff in Hp. rewrite Et, Hp. cbn [bind]. rewrite Ed. reflexivity.
    + exists (SItem p). rewrite Et. cbn [bind]. rewrite Ed, Es. split; [reflexivity|]. cbn. rewrite P. reflexivity.
Qed.

Definition slot_of (a : sargs) (p : item) (e : Qc) : item :=
  mkItem CTimeSlot (i_t p) e (match sa_unit a with UUnit u => u | _ => UPhys (e - i_t p)%Qc end) (i_tz p) None [] None.
Lemma starts_keyed zone a p : sane a -> starts_at zone a p -> well_keyed p.
Proof.
  intros (S & _) H. destruct H as [d q z Ed Hd -> Ht|t q z Ed Et Hp ->|Ed Et Es P]; [exact Logic.I|exact Logic.I|apply S, Es].
Qed.
Lemma starts_point zone a p : starts_at zone a p -> is_point p = true.
Proof. intros H. destruct H as [d q z Ed Hd -> Ht|t q z Ed Et Hp ->|Ed Et Es P]; [reflexivity|reflexivity|exact P]. Qed.
Lemma slot_iff zone c a x : sane a ->
  (new_time_slot zone c a = Ok x <-> exists p e, starts_at zone a p /\ ends_at c a p e /\ x = slot_of a p e).
Proof.
  intros S.
  assert (U : new_time_slot zone c a = do start <- slot_start zone a;
    do _ <- (if (truthy_arg start && truthy_arg (sa_end a))%bool
             then do z <- arg_tz start; do z' <- arg_tz (sa_end a); if String.eqb z z' then Ok tt else Err ValueError
             else Ok tt);
    match time_point_arg start with
    | None => Err TypeError
    | Some p =>
      if (truthy_arg (sa_end a) && match time_point_arg (sa_end a) with None => true | Some _ => false end)%bool then Err TypeError
      else match sa_unit a with
      | UJunk => Err TypeError
      | _ => do e <- match sa_end a, sa_unit a with
              | SNone, UUnit u => Ok (unit_shift c u (i_t p) 1)
              | SItem q, _ => do same <- item_eq p q; if same then Err ValueError else Ok (i_t q)
              | _, _ => Err AttributeError
              end;
             Ok (slot_of a p e)
      end
    end).
  { unfold new_time_slot, slot_start. destruct (match sa_t a with Some t => _ | None => _ end) as [s1|]; [|reflexivity]. cbn [bind].
    destruct (match sa_dt a with Some t => _ | None => _ end) as [s2|]; reflexivity. }
  rewrite U. clear U. split.
  - destruct (slot_start zone a) as [s|er] eqn:Es; [|discriminate]. cbn [bind].
    destruct (if (truthy_arg s && truthy_arg (sa_end a))%bool then _ else _) as [u|er] eqn:Ez; [|discriminate]. cbn [bind].
    destruct (time_point_arg s) as [p|] eqn:Ep; [|discriminate].
    assert (Hp : starts_at zone a p) by (apply start_iff; exists s; auto).
    destruct s as [|ps|]; cbn in Ep; try discriminate. destruct (is_point ps) eqn:Pp; [|discriminate]. injection Ep as ->. cbn in Ez.
    destruct (sa_end a) as [|q|] eqn:Ee; cbn [truthy_arg time_point_arg andb] in *.
    + destruct (sa_unit a) as [|v|] eqn:Eu; try discriminate. cbn [bind]. intros [= <-]. exists p, (unit_shift c v (i_t p) 1).
      split; [exact Hp|]. split; [apply end_unit; assumption|reflexivity].
    + destruct (is_point q) eqn:Pq; cbn [negb]; [|discriminate]. cbn in Ez.
      destruct (String.eqb_spec (i_tz p) (i_tz q)) as [Htz|]; [|discriminate].
      destruct (item_eq_ok p q (starts_keyed _ _ _ S Hp) (proj2 S q Ee) (or_introl Pp)) as (b & Eb & Hb).
      rewrite Eb. cbn [bind].
      intros H. assert (b = false) as ->.
      { destruct b; [|reflexivity]. destruct (sa_unit a); discriminate H. }
      exists p, (i_t q). split; [exact Hp|]. split; [|destruct (sa_unit a); cbn in H; congruence].
      apply end_point; auto; [intros E; rewrite E in H; discriminate|]. intros F. apply Hb in F. discriminate.
    + destruct (sa_unit a); discriminate.
  - intros (p & e & Hp & He & ->). pose proof (starts_point _ _ _ Hp) as Pp. pose proof (starts_keyed _ _ _ S Hp) as Wp.
    pose proof (proj2 (start_iff zone a p) Hp) as (s & Es & Ep).
    rewrite Es. cbn [bind]. rewrite Ep. destruct s as [|ps|]; cbn in Ep; try discriminate. destruct (is_point ps); [|discriminate]. injection Ep as ->.
    destruct He as [q Ee Pq Htz Hu Hne|u Ee Eu]; rewrite Ee; cbn [truthy_arg arg_tz time_point_arg bind andb].
    + rewrite Htz, String.eqb_refl. cbn [bind]. rewrite Pq. cbn [andb].
      destruct (item_eq_ok p q Wp (proj2 S q Ee) (or_introl Pp)) as (b & Eb & Hb). rewrite Eb. cbn [bind].
      destruct b; [destruct Hne; apply Hb; reflexivity|]. destruct (sa_unit a); [reflexivity|reflexivity|congruence].
    + rewrite Eu. reflexivity.
Qed.

(* comparisons *)
Lemma same_data_refl a : same_data a a.
Proof. destruct a; cbn; auto. Qed.
Lemma same_data_sym a b : same_data a b -> same_data b a.
Proof. destruct a, b; cbn; auto. Qed.
Lemma same_data_trans a b c : same_data a b -> same_data b c -> same_data a c.
Proof. destruct a, b, c; cbn; try tauto; [congruence|]. intros H1 H2 k. rewrite H1. apply H2. Qed.
Lemma same_thing_refl x : same_thing x x.
Proof. repeat split. intros a b E1 E2. rewrite E1 in E2. injection E2 as ->. apply same_data_refl. Qed.
Lemma same_thing_sym x y : same_thing x y -> same_thing y x.
Proof. intros (H1 & H2 & H3 & H4). repeat split; auto. intros a b Ea Eb. apply same_data_sym. apply H4; assumption. Qed.
Lemma same_thing_trans x y z : (i_data y = None -> i_data x = None \/ i_data z = None) -> same_thing x y -> same_thing y z -> same_thing x z.
Proof.
  intros D (H1 & H2 & H3 & H4) (G1 & G2 & G3 & G4). repeat split; try congruence. intros a c Ea Ec.
  destruct (i_data y) as [b|] eqn:Eb; [|destruct (D eq_refl); congruence].
  eapply same_data_trans; [apply H4|apply G4]; auto.
Qed.
