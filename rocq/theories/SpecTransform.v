(* SpecTransform.v -- SPECIFICATION vocabulary for resampling and aggregation (C42-C47). *)
From Verif Require Export SpecIntervals Transform.

(* The points of the series with their validity regions (C36), for the sampling interval si. *)
Definition with_regions (si : Qc) (l : list item) (pts : list vpoint) : Prop :=
  map vp_item pts = l /\ (forall p, In p pts -> vp_interp p = false) /\
  tile si (times l) (map (fun p => mkRegion (i_t (vp_item p)) (vp_from p) (vp_to p)) pts).
(* The sampling interval: the one given, or the one which is detected. *)
Definition interval_is (validity : option Qc) (auto : result Qc) (si : Qc) : Prop :=
  Qclt q0 si /\ (validity = Some si \/ (validity = None /\ auto = Ok si)).

(* k units after t *)
Fixpoint units_after (c : cal) (u : tunit) (t : Qc) (k : nat) : Qc :=
  match k with 0 => t | S j => unit_shift c u (units_after c u t j) 1 end.
(* Adding the unit to an instant always moves forward, at least by some fixed amount. *)
Definition lasting (c : cal) (u : tunit) : Prop :=
  exists m, Qclt q0 m /\ forall t, Qcle (Qcplus t m) (unit_shift c u t 1).

(* b is the first boundary of the unit which is not before t. *)
Definition first_boundary (rd : rounding) (u : tunit) (tz : string) (t b : Qc) : Prop :=
  rd_on rd u tz b = true /\ Qcle t b /\ forall b', rd_on rd u tz b' = true -> Qcle t b' -> Qcle b b'.
(* What propertime is assumed to do: an instant not on a boundary is rounded up to the first boundary. *)
Definition rounds (rd : rounding) (u : tunit) : Prop :=
  forall tz t, rd_on rd u tz t = false -> first_boundary rd u tz t (rd_ceil rd u tz t).
Definition rounds_up (rd : rounding) (u : tunit) : Prop := forall tz t, Qcle t (rd_ceil rd u tz t).

(* The value at x of the straight line through (t0, v0) and (t1, v1). *)
Definition line_value (t0 v0 t1 v1 x : Qc) : Qc := Qcplus v0 (Qcdiv (Qcmult (Qcminus x t0) (Qcminus v1 v0)) (Qcminus t1 t0)).
(* The gaps between the regions: what the straight line adds on [F, T], the length of the part of the gap
   in [F, T] by the value in the middle of it.  The points come with their value. *)
Fixpoint line_in_gaps (F T : Qc) (l : list (vpoint * Qc)) : Qc :=
  match l with
  | (p, v) :: (((q, w) :: _) as r) =>
    Qcplus (Qcmult (overlap (vp_to p) (vp_from q) F T)
                   (line_value (i_t (vp_item p)) v (i_t (vp_item q)) w (midpoint (qmax (vp_to p) F) (qmin (vp_from q) T))))
           (line_in_gaps F T r)
  | _ => q0
  end.
(* The mean on [F, T] of the signal which has the value of each point on its region, and is on the straight
   line in the gaps. *)
Definition mean_over (F T : Qc) (l : list (vpoint * Qc)) : Qc :=
  Qcdiv (Qcplus (total (map (fun pv => Qcmult (snd pv) (overlap (vp_from (fst pv)) (vp_to (fst pv)) F T)) l)) (line_in_gaps F T l))
        (Qcminus T F).

(* No item carries a data loss (or it is zero). *)
Definition no_losses (l : list item) : Prop := forall x, In x l -> data_loss x = None \/ data_loss x = Some q0.
(* All the values of the label are in the range. *)
Definition in_range (l : list item) (lb : string) (m M : Qc) : Prop := forall x v, In x l -> has_value x lb v -> Qcle m v /\ Qcle v M.
Definition last_time (l : list item) (t : Qc) : Prop := exists x, nth_error l (length l - 1) = Some x /\ i_t x = t.
Definition first_time (l : list item) (t : Qc) : Prop := exists x, nth_error l 0 = Some x /\ i_t x = t.
(* timezone of the new items *)
Definition tz_is (s : series) (z : string) : Prop := z = match series_tz s with Some z => z | None => "UTC"%string end.
(* Some point of the series is in the slot. *)
Definition has_point (l : list item) (F T : Qc) : Prop := exists x, In x l /\ Qcle F (i_t x) /\ Qclt (i_t x) T.
(* The items of the series are as before, but for the weights attached to them. *)
Definition untouched (l l' : list item) : Prop := map (fun x => set_weight x None) l' = map (fun x => set_weight x None) l.
(* A start or end argument: none (then the automatic one), or an instant on a boundary of the unit. *)
Definition limit_is (rd : rounding) (u : tunit) (l : option tlimit) (auto t : Qc) : Prop :=
  match l with
  | None => t = auto
  | Some (LNum x) => x <> q0 /\ rd_on rd u "UTC" x = true /\ t = x
  | Some (LDt x tz) => rd_on rd u tz x = true /\ t = x
  end.
(* The operations of the library usable in an aggregation. *)
Definition standard (o : operation) : Prop := o = agg_avg \/ o = agg_sum \/ o = agg_min \/ o = agg_max.
(* The points with time in [F, T). *)
Definition points_in (l : list item) (F T : Qc) : list item := filter (fun x => qleb F (i_t x) && qltb (i_t x) T) l.
(* The fraction of [F, T] which is not covered by the regions. *)
Definition missing_fraction (pts : list vpoint) (F T : Qc) : Qc := Qcminus q1 (Qcdiv (covered_length pts F T) (Qcminus T F)).
(* Consecutive points are never further apart than si. *)
Definition close (si : Qc) (l : list item) : Prop := consecutive (fun x y => Qcle (Qcminus (i_t y) (i_t x)) si) l.

(* The value of an index of an item, if it has one. *)
Definition index_value_of (ix : string) (x : item) : option Qc := match dget ix (i_idx x) with Some v => v | None => None end.
(* The mean of an index on [F, T]: each point which has a value for it counts for the length of the part of its region in [F, T], and
   nothing else counts; there is no mean if these points have no part of [F, T]. *)
Definition index_mean (ix : string) (F T : Qc) (pts : list vpoint) : option Qc :=
  let have := flat_map (fun p => match index_value_of ix (vp_item p) with Some v => [(v, overlap (vp_from p) (vp_to p) F T)] | None => [] end) pts in
  let len := total (map snd have) in
  if qltb q0 len then Some (Qcdiv (total (map (fun vw => Qcmult (fst vw) (snd vw)) have)) len) else None.
(* The indexes of a new item: besides the data loss, it has those with the names given, each with its mean, and no others. *)
Definition indexes_are (names : list string) (F T : Qc) (pts : list vpoint) (x : item) : Prop :=
  forall ix, ix <> "data_loss"%string -> (In ix names -> dget ix (i_idx x) = Some (index_mean ix F T pts)) /\ (~ In ix names -> dget ix (i_idx x) = None).
