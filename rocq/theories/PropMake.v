(* PropMake.v -- property theorem C87 (making and comparing points and slots). *)
From Verif Require Import MakeProofs SeriesProofs2 DictLemmas Witness PropTactics.

(* A point is made exactly when its arguments say a time, and it is at that time and in that timezone. *)
Theorem C87_point : forall zone a t z, new_time_point zone a = Ok (t, z) <-> point_says zone a t z.
Proof. exact point_iff. Qed.
Print Assumptions C87_point.

(* A slot is made exactly when its arguments say a start and an end, and it goes from one to the other in the timezone of the start, with the unit given or,
   without one, its length in seconds. *)
Theorem C87_slot : forall zone c a x, sane a ->
  (new_time_slot zone c a = Ok x <->
   exists p e, starts_at zone a p /\ ends_at c a p e /\
     x = mkItem CTimeSlot (i_t p) e (match sa_unit a with UUnit u => u | _ => UPhys (e - i_t p)%Qc end) (i_tz p) None [] None).
Proof. exact slot_iff. Qed.
Print Assumptions C87_slot.

(* The data must be there, the indexes must be a dictionary if there are any; the data loss goes with the indexes, and the others stay as given. *)
Theorem C87_data : forall d ix loss,
  (d = None -> new_data d ix loss = Err GenericException) /\
  (forall d', d = Some d' -> ix = IJunk -> new_data d ix loss = Err ValueError) /\
  (forall d', d = Some d' -> ix <> IJunk -> exists r g, new_data d ix loss = Ok (d', r, g) /\
     (forall l, loss = Some l -> dget "data_loss" r = Some l) /\
     (forall k, (loss = None \/ k <> "data_loss"%string) -> dget k r = match ix with IDict x => dget k x | _ => None end)).
Proof.
  intros d ix loss. split; [intros ->; reflexivity|]. split; [intros d' -> ->; reflexivity|].
  intros d' -> H. unfold new_data. destruct ix as [|x|]; [| |congruence]; eexists; eexists; (split; [reflexivity|split]).
  - intros l ->. rewrite dget_dset, String.eqb_refl. reflexivity.
  - intros k Hk. destruct loss as [l|]; [|reflexivity]. destruct Hk as [Hk|Hk]; [discriminate|]. rewrite dget_dset. destruct (String.eqb_spec k "data_loss"); [contradiction|reflexivity].
  - intros l ->. rewrite dget_dset, String.eqb_refl. reflexivity.
  - intros k Hk. destruct loss as [l|]; [|reflexivity]. destruct Hk as [Hk|Hk]; [discriminate|]. rewrite dget_dset. destruct (String.eqb_spec k "data_loss"); [contradiction|reflexivity].
Qed.
Print Assumptions C87_data.

(* A data point, or slot: the data and the indexes of C87_data with the time of C87_point or C87_slot, and nothing else. *)
Theorem C87_data_items : forall zone c d ix loss d' r g, new_data d ix loss = Ok (d', r, g) ->
  (forall a x g', new_data_time_point zone a d ix loss = Ok (x, g') <->
     g' = g /\ exists t z, point_says zone a t z /\ x = mkItem CDataTimePoint t t (UPhys q0) z (Some d') r None) /\
  (forall a x g', new_data_time_slot zone c a d ix loss = Ok (x, g') <->
     g' = g /\ exists y, new_time_slot zone c a = Ok y /\ x = mkItem CDataTimeSlot (i_t y) (i_end y) (i_unit y) (i_tz y) (Some d') r None).
Proof.
  intros zone c d ix loss d' r g E. split; intros a x g'.
  - unfold new_data_time_point. rewrite E. cbn [bind]. split.
    + destruct (new_time_point zone a) as [[t z]|er] eqn:P; [|discriminate]. cbn [bind]. intros [= <- <-]. split; [reflexivity|].
      exists t, z. split; [apply point_iff, P|reflexivity].
    + intros (-> & t & z & P & ->). apply point_iff in P. rewrite P. reflexivity.
  - unfold new_data_time_slot. rewrite E. cbn [bind]. split.
    + destruct (new_time_slot zone c a) as [y|er] eqn:P; [|discriminate]. cbn [bind]. intros [= <- <-]. split; [reflexivity|].
      exists y. split; reflexivity.
    + intros (-> & y & P & ->). rewrite P. reflexivity.
Qed.
Print Assumptions C87_data_items.

(* Equality is about the time and the data, and nothing else; a point is just different from a slot. *)
Theorem C87_equality : forall x y, well_keyed x -> well_keyed y -> is_point x = true \/ comparable x y ->
  exists b, item_eq x y = Ok b /\ (b = true <-> same_thing x y).
Proof. exact item_eq_ok. Qed.
Print Assumptions C87_equality.

(* Among items with data, or among items without, it is an equivalence. *)
Theorem C87_equivalence :
  (forall x, same_thing x x) /\ (forall x y, same_thing x y -> same_thing y x) /\
  (forall x y z, (i_data y = None -> i_data x = None \/ i_data z = None) -> same_thing x y -> same_thing y z -> same_thing x z).
Proof. split; [exact same_thing_refl|]. split; [exact same_thing_sym|exact same_thing_trans]. Qed.
Print Assumptions C87_equivalence.

(* Points are ordered by time: never after itself, transitively, and exactly one of before, after and at the same time. *)
Theorem C87_order :
  (forall x y, point_gt x y = true <-> Qclt (i_t y) (i_t x)) /\ (forall x, point_gt x x = false) /\
  (forall x y z, point_gt x y = true -> point_gt y z = true -> point_gt x z = true) /\
  (forall x y, (point_gt x y = true /\ point_gt y x = false /\ i_t x <> i_t y) \/ (point_gt x y = false /\ point_gt y x = true /\ i_t x <> i_t y) \/
    (point_gt x y = false /\ point_gt y x = false /\ i_t x = i_t y)).
Proof.
  assert (G : forall x y, point_gt x y = true <-> Qclt (i_t y) (i_t x)).
  { intros x y. unfold point_gt. destruct (qltb_spec (i_t y) (i_t x)); split; auto; discriminate. }
  split; [exact G|]. split; [|split].
  - intros x. unfold point_gt. destruct (qltb_spec (i_t x) (i_t x)); [qlra|reflexivity].
  - intros x y z H1 H2. apply G in H1. apply G in H2. apply G. qlra.
  - intros x y. unfold point_gt. destruct (qltb_spec (i_t y) (i_t x)) as [H|H], (qltb_spec (i_t x) (i_t y)) as [H'|H'].
    + qlra.
    + left. repeat split. intros E. rewrite E in H. qlra.
    + right. left. repeat split. intros E. rewrite E in H'. qlra.
    + right. right. repeat split. apply Qcle_antisym; qlra.
Qed.
Print Assumptions C87_order.

(* The timezone never matters to comparisons. *)
Theorem C87_timezone : forall x y x' y', same_but_zone x x' -> same_but_zone y y' ->
  item_eq x' y' = item_eq x y /\ point_gt x' y' = point_gt x y /\ succeeds x' y' = succeeds x y.
Proof. intros x y x' y' (z & ->) (z' & ->). repeat split. Qed.
Print Assumptions C87_timezone.

(* ---------------- what does not hold ---------------- *)
Definition utc_only (z : string) : result string := if (String.eqb z "UTC" || String.eqb z "Europe/Rome")%bool then Ok z else Err KeyError.
Definition no_cal : cal := mkCal (fun _ _ => Err ValueError) (fun _ t _ => t).
Definition from_to (p q : item) : sargs := mkSargs (SItem p) (SItem q) UNone None None None.

(* Equality is not transitive between points with data and without. *)
Theorem C87_transitive_refuted : exists x y z, item_eq x y = Ok true /\ item_eq y z = Ok true /\ item_eq x z = Ok false.
Proof. exists (pt 0 1), (tpt 0), (pt 0 2). repeat split; vm_compute; reflexivity. Qed.
Print Assumptions C87_transitive_refuted.

(* A slot cannot be compared with anything else: an exception instead of False, where a point compared with a slot gives False. *)
Theorem C87_slot_compare_refuted :
  (forall x y, is_slot x = true -> i_data x = None -> is_point y = true -> item_eq x y = Err AttributeError) /\
  (forall x y, is_slot x = true -> is_slot y = true -> i_data x = None -> i_data y <> None -> item_eq x y = Err AttributeError /\ item_eq y x = Err AttributeError) /\
  (forall x y, is_point x = true -> is_slot y = true -> item_eq x y = Ok false).
Proof.
  split; [|split].
  - intros x y Sx Dx Py. unfold item_eq. rewrite slot_point in Sx. destruct (is_point x); [discriminate|]. rewrite Py, Dx. reflexivity.
  - intros x y Sx Sy Dx Dy. unfold item_eq, has_data. rewrite slot_point in Sx, Sy. destruct (is_point x); [discriminate|]. destruct (is_point y); [discriminate|].
    rewrite Dx. destruct (i_data y); [split; reflexivity|congruence].
  - intros x y Px Sy. unfold item_eq. rewrite slot_point in Sy. rewrite Px. destruct (is_point y); [discriminate|reflexivity].
Qed.
Print Assumptions C87_slot_compare_refuted.

(* Slots which end before they start, slots of no length (between points with different data) and units which have nothing to do with the end are all accepted. *)
Theorem C87_slot_checks_refuted :
  (exists x, new_time_slot utc_only no_cal (from_to (tpt 10) (tpt 0)) = Ok x /\ Qclt (i_end x) (i_t x)) /\
  (exists x, new_time_slot utc_only no_cal (from_to (pt 10 1) (pt 10 2)) = Ok x /\ i_end x = i_t x) /\
  (exists x, new_time_slot utc_only no_cal (mkSargs (SItem (tpt 0)) (SItem (tpt 10)) (UUnit (UPhys (qz 3))) None None None) = Ok x /\
     i_end x = qz 10 /\ i_t x = qz 0 /\ i_unit x = UPhys (qz 3)).
Proof.
  split; [|split]; (eexists; split; [vm_compute; reflexivity|]); cbn [i_end i_t i_unit].
  - apply qltb_lt. vm_compute. reflexivity.
  - apply qeqb_eq. vm_compute. reflexivity.
  - repeat split; apply qeqb_eq; vm_compute; reflexivity.
Qed.
Print Assumptions C87_slot_checks_refuted.

(* The dictionary of indexes passed by the caller is the one of the item, and a data loss is written in it. *)
Theorem C87_caller_refuted : exists zone a d given x after,
  new_data_time_point zone a (Some d) (IDict given) (Some (Some q1)) = Ok (x, Some after) /\ after <> given /\ i_idx x = after.
Proof.
  exists utc_only, (mkPargs [] (Some (PNum q0)) None None false), (d1 1), []. eexists. eexists. split; [vm_compute; reflexivity|]. split; [discriminate|reflexivity].
Qed.
Print Assumptions C87_caller_refuted.

(* With both t and dt a point follows the one and a slot the other; and the timezone asked for is ignored when a point is made from another one. *)
Theorem C87_arguments_refuted :
  (forall zone c q d t z u, new_time_point zone (mkPargs [] (Some (PNum q)) (Some d) None false) = Ok (t, z) -> t = q /\
     (forall x t', d_epoch d = Ok t' -> new_time_slot zone c (mkSargs SNone SNone (UUnit u) (Some (PNum q)) (Some d) None) = Ok x -> i_t x = t')) /\
  (forall zone x tz t z, is_point x = true -> new_time_point zone (mkPargs [PItem x] None None tz false) = Ok (t, z) -> t = i_t x /\ z = i_tz x).
Proof.
  split.
  - intros zone c q d t z u E. cbn in E. injection E as <- _. split; [reflexivity|]. intros x t' Ed E. cbn in E. rewrite Ed in E. cbn in E.
    apply (f_equal (fun r => match r with Ok x => i_t x | Err _ => q0 end)) in E. exact (eq_sym E).
  - intros zone x tz t z P E. unfold new_time_point in E. destruct (given_tz zone (pa_tz _)); [|discriminate]. cbn in E. rewrite P in E. cbn in E. injection E as <- <-. split; reflexivity.
Qed.
Print Assumptions C87_arguments_refuted.

(* ---------------- the hypotheses can be met ---------------- *)
Example C87_point_example :
  (exists t, new_time_point utc_only (mkPargs [] (Some (PNum (qz 5))) None (Some "Europe/Rome"%string) false) = Ok (t, "Europe/Rome"%string) /\ t = qz 5) /\
  new_time_point utc_only (mkPargs [] (Some (PNum (qz 5))) None (Some "Mars"%string) false) = Err KeyError /\
  new_time_point utc_only (mkPargs [] None None None true) = Err UnboundLocalError /\
  new_time_point utc_only (mkPargs [PNum q0; PNum q1] None None None false) = Err GenericException.
Proof. split; [eexists; split; [vm_compute; reflexivity|reflexivity]|]. repeat split; vm_compute; reflexivity. Qed.
Example C87_slot_example :
  sane (from_to (tpt 0) (tpt 10)) /\ (exists x, new_time_slot utc_only no_cal (from_to (tpt 0) (tpt 10)) = Ok x /\ i_end x = qz 10) /\
  new_time_slot utc_only no_cal (from_to (tpt 0) (tpt 0)) = Err ValueError /\
  new_time_slot utc_only no_cal (from_to (tpt 0) (ptz 10 "Europe/Rome")) = Err ValueError /\
  new_time_slot utc_only no_cal (mkSargs (SItem (tpt 0)) SNone UNone None None None) = Err AttributeError /\
  new_time_slot utc_only no_cal (mkSargs (SItem (slot 0 1 1)) SNone (UUnit (UPhys q1)) None None None) = Err TypeError /\
  exists x, new_time_slot utc_only no_cal (mkSargs SNone SNone (UUnit (UPhys (qz 60))) (Some (PNum (qz 120))) None None) = Ok x /\ i_end x = qz 180.
Proof.
  split; [split; intros x [= <-]; exact Logic.I|]. split; [eexists; split; [vm_compute; reflexivity|apply qeqb_eq; vm_compute; reflexivity]|].
  repeat split; try (vm_compute; reflexivity). eexists; split; [vm_compute; reflexivity|apply qeqb_eq; vm_compute; reflexivity].
Qed.
Example C87_equality_example : well_keyed (pt 0 1) /\ comparable (slot 0 10 1) (slot 10 10 2).
Proof. split; [cbn; constructor; [intros []|constructor]|]. right. repeat split; discriminate. Qed.
