(* TransformProofs11.v -- resample and aggregate, from the arguments to the result. *)
From Verif Require Import SpecTransform BaseLemmas AccessProofs AccessProofs3 DictLemmas OpsProofs OpsProofs2 OpsProofs3
  IntervalsProofs IntervalsProofs2 IntervalsProofs3 InterpProofs TransformProofs TransformProofs2 TransformProofs3 TransformProofs4 TransformProofs5 TransformProofs6 TransformProofs7 TransformProofs8 TransformProofs9 TransformProofs10.

Lemma last_item_nth l x : nth_error l (length l - 1) = Some x -> last_item l = Some x.
Proof.
  unfold last_item. intros H. destruct l as [|y l] using rev_ind; [discriminate|]. rewrite rev_unit. rewrite app_length in H. cbn [length] in H. replace (length l + 1 - 1) with (length l) in H by lia. rewrite nth_mid in H. congruence.
Qed.

Section Core.
Variables (P : tparams) (s : series) (start stop : option tlimit) (validity : option Qc) (auto : result Qc).
Variables (si t0 tl af from to : Qc) (pts : list vpoint).
Let g := units_after (tp_cal P) (tp_unit P) from.
Hypothesis HD : dict_points s.
Hypothesis HV : interval_is validity auto si.
Hypothesis HR : with_regions si (s_items s) pts.
Hypothesis HU : lasting (tp_cal P) (tp_unit P).
Hypothesis Hsec : exists q, unit_seconds (tp_cal P) (tp_unit P) t0 = Ok q.
Hypothesis HF : first_time (s_items s) t0.
Hypothesis HL : last_time (s_items s) tl.
Hypothesis Haf : auto_start P (tz_of s) t0 = Ok af.
Hypothesis Hfrom : limit_or P start af = Ok from.
Hypothesis Hto : limit_or P stop tl = Ok to.
Hypothesis Hle : Qcle t0 from.

Lemma core_times : map tm pts = times (s_items s).
Proof. destruct HR as (E & _). rewrite <- E. unfold times. rewrite map_map. reflexivity. Qed.
Lemma core_first t : nth_error (map tm pts) 0 = Some t -> Qcle t from.
Proof. rewrite core_times. unfold times. rewrite nth_error_map. destruct HF as (x & E & Et). rewrite E. cbn. intros X. injection X as <-. rewrite Et. exact Hle. Qed.
Lemma core_last : nth_error (map tm pts) (length (map tm pts) - 1) = Some tl.
Proof. rewrite core_times. unfold times. rewrite map_length, nth_error_map. destruct HL as (x & E & Et). rewrite E. cbn. congruence. Qed.
Lemma core_placed : placed pts.
Proof. apply (regions_placed si (s_items s)); [exact HR|apply points_increasing; exact HD]. Qed.
Lemma core_good : good pts.
Proof. apply (regions_good si s); assumption. Qed.

Variables (Same : list vpoint -> Prop) (R : nat -> item -> Prop).
Hypothesis Same_times : forall p, Same p -> map tm p = map tm pts.
Hypothesis EMIT : forall p k prev i first, Same p -> at_slot P from (map tm pts) k prev i ->
  exists fl p' x, slot_bounds p (grid (tp_cal P) (tp_unit P) from k) (grid (tp_cal P) (tp_unit P) from (S k)) prev i = Ok fl /\
    compute_new P s (all_indexes (s_items s)) auto si first p (grid (tp_cal P) (tp_unit P) from k) (grid (tp_cal P) (tp_unit P) from (S k)) (fst fl) (snd fl) prev i = Ok (p', x) /\ Same p' /\ R k x.
Hypothesis OUT : forall xs, (forall j x, nth_error xs j = Some x -> R j x) -> exists o, ts_new (tp_env P) None xs = Ok o.
Hypothesis Same0 : Same pts.

Lemma core_ok : exists N r pts', (forall fuel, N <= fuel -> tprocess fuel P s start stop validity auto = Ok (r, map vp_item pts')) /\
  Same pts' /\ ts_new (tp_env P) None (s_items r) = Ok r /\ (forall j x, nth_error (s_items r) j = Some x -> R j x) /\
  (Qcle tl to -> forall k, k < length (s_items r) <-> Qcle (g (S k)) tl) /\
  (forall K0 t, to = g K0 -> In t (times (s_items s)) -> Qcle (g K0) t -> Qclt t (g (S K0)) -> length (s_items r) = K0).
Proof.
  destruct (lasting_reach _ _ from HU (map tm pts)) as [Kmax HK]. pose proof (lasting_inc _ _ HU) as Hinc.
  assert (Hsi : strictly_increasing (map tm pts)) by (rewrite core_times; apply points_increasing; exact HD).
  destruct (loop_ok P s (all_indexes (s_items s)) auto si from to (map tm pts) Hinc Hsi core_first Kmax HK Same R Same_times EMIT OUT (S (S Kmax)) pts ltac:(lia) Same0) as (st & Est & Ist).
  destruct (inv_result P from to (map tm pts) Hinc Hsi core_first Kmax HK Same R Same_times st Ist) as (K & (O1 & O2 & O3) & S1 & C1 & C2).
  exists (S (S Kmax)), (st_out st), (st_pts st). split; [|split; [exact S1|split; [exact O1|split; [exact O3|split]]]].
  - intros fuel Hfuel. unfold tprocess. destruct HF as (x0 & E0 & Et0). destruct (s_items s) as [|y l] eqn:Es; [discriminate|]. cbn in E0. injection E0 as ->.
    assert (Cls : i_cls x0 = CDataTimePoint). { destruct HD as ((_ & Hn & _) & (Hp & _) & _). specialize (Hp x0). specialize (Hn x0). rewrite Es in Hp, Hn. specialize (Hp (or_introl eq_refl)). destruct (Hn (or_introl eq_refl)) as [[X|X] _]; [exact X|]. unfold is_point in Hp. rewrite X in Hp. discriminate. }
    rewrite Cls, Et0. fold (tz_of s). rewrite Haf. cbn [bind]. rewrite Hfrom. cbn [bind]. destruct HL as (xl & El & Etl). rewrite (last_item_nth _ _ El). cbn [bind]. rewrite Etl, Hto. cbn [bind].
    destruct HV as (Psi & HV'). replace (match validity with Some v => Ok v | None => auto end) with (Ok (A := Qc) si) by (destruct HV' as [-> |[-> ->]]; reflexivity). cbn [bind].
    destruct Hsec as (q & Eq). rewrite Eq. cbn [bind].
    assert (Hsi' : strictly_increasing (times (x0 :: l))) by (rewrite <- Es; apply points_increasing; exact HD).
    destruct (attach_ok (x0 :: l) si auto Hsi' Psi) as (rs & p1 & Ers & Ep1 & Hp1).
    rewrite Ers. cbn [bind]. rewrite Ep1. cbn [bind]. rewrite (regions_unique si (x0 :: l) p1 pts Hp1 HR).
    rewrite (process_fuel P s (all_indexes (x0 :: l)) auto si from to (indexed pts) (init_state pts from) st (S (S Kmax)) fuel Hfuel Est). reflexivity.
  - intros Htl k. rewrite O2. unfold g. rewrite <- grid_after. apply C1; [apply core_last|exact Htl].
  - intros K0 t Et Ht T1 T2. rewrite O2. unfold g in *. rewrite <- grid_after in Et, T1, T2. apply (C2 K0 t Et); [rewrite core_times; exact Ht|exact T1|exact T2].
Qed.
End Core.

(* ---------------- what the results say, in the terms of the specification ---------------- *)
Lemma data_loss_prior l : no_losses l -> forall p, In (vp_item p) l -> prior_loss p = q0.
Proof. intros H p Hp. unfold prior_loss. destruct (H _ Hp) as [-> | ->]; reflexivity. Qed.
Lemma unweigh_untouched pts pts' : map unweigh pts' = map unweigh pts -> untouched (map vp_item pts) (map vp_item pts').
Proof.
  intros H. unfold untouched. rewrite !map_map. change (fun x => set_weight (vp_item x) None) with (fun x => vp_item (unweigh x)). rewrite <- (map_map unweigh vp_item pts'), H, map_map. reflexivity.
Qed.
