(* SpecIntervals.v -- SPECIFICATION vocabulary for validity regions, coverage, data loss, sampling
   interval and interpolation (C36-C41). *)
From Verif Require Export SpecOps Intervals.

Definition midpoint (a b : Qc) : Qc := Qcdiv (Qcplus a b) (qz 2).

(* The regions of the points at the given times, for the sampling interval si: each contains its point,
   extends at most half an interval on each side, none overlaps another; between two consecutive points
   closer than si the boundary is half way, otherwise both extend exactly half an interval. *)
Definition tile (si : Qc) (ts : list Qc) (rs : list region) : Prop :=
  map r_t rs = ts /\
  (forall r, In r rs -> Qclt (r_from r) (r_t r) /\ Qclt (r_t r) (r_to r) /\
     Qcle (Qcminus (r_t r) (Qcdiv si (qz 2))) (r_from r) /\ Qcle (r_to r) (Qcplus (r_t r) (Qcdiv si (qz 2)))) /\
  (forall i j r r', i < j -> nth_error rs i = Some r -> nth_error rs j = Some r' -> Qcle (r_to r) (r_from r')) /\
  consecutive (fun r r' =>
    if qltb (Qcminus (r_t r') (r_t r)) si
    then r_to r = midpoint (r_t r) (r_t r') /\ r_from r' = midpoint (r_t r) (r_t r')
    else r_to r = Qcplus (r_t r) (Qcdiv si (qz 2)) /\ r_from r' = Qcminus (r_t r') (Qcdiv si (qz 2))) rs /\
  (forall r, nth_error rs 0 = Some r -> r_from r = Qcminus (r_t r) (Qcdiv si (qz 2))) /\
  (forall r, nth_error rs (length rs - 1) = Some r -> r_to r = Qcplus (r_t r) (Qcdiv si (qz 2))).

(* Length of the intersection of [a, b] with [f, t]. *)
Definition overlap (a b f t : Qc) : Qc := qmax q0 (Qcminus (qmin b t) (qmax a f)).

(* The points which were measured (not interpolated to fill a gap). *)
Definition measured (l : list vpoint) : list vpoint := filter (fun p => negb (vp_interp p)) l.
(* Regions in time order with no overlaps. *)
Definition disjoint_regions (l : list vpoint) : Prop :=
  (forall p, In p l -> Qcle (vp_from p) (vp_to p)) /\
  (forall i j p p', i < j -> nth_error l i = Some p -> nth_error l j = Some p' -> Qcle (vp_to p) (vp_from p')).
(* The instant is in the region of a measured point. *)
Definition covered (l : list vpoint) (x : Qc) : Prop :=
  exists p, In p l /\ vp_interp p = false /\ Qcle (vp_from p) x /\ Qcle x (vp_to p).
(* Total length covered in [f, t] by disjoint regions. *)
Definition covered_length (l : list vpoint) (f t : Qc) : Qc :=
  total (map (fun p => overlap (vp_from p) (vp_to p) f t) (measured l)).

(* The data loss a point already carries (none, if not set). *)
Definition prior_loss (p : vpoint) : Qc := match data_loss (vp_item p) with Some d => d | None => q0 end.
(* Total length lost in [f, t], each region counting for the loss of its point. *)
Definition lost_length (l : list vpoint) (f t : Qc) : Qc :=
  total (map (fun p => Qcmult (prior_loss p) (overlap (vp_from p) (vp_to p) f t)) (measured l)).
(* The regions are those of points at least si apart: half an interval on each side. *)
Definition full_regions (si : Qc) (l : list vpoint) : Prop :=
  forall p, In p l -> vp_interp p = false ->
    vp_from p = Qcminus (i_t (vp_item p)) (Qcdiv si (qz 2)) /\ vp_to p = Qcplus (i_t (vp_item p)) (Qcdiv si (qz 2)).

(* Number of occurrences. *)
Fixpoint occurrences (d : Qc) (l : list Qc) : nat :=
  match l with [] => 0 | x :: r => (if qeqb x d then 1 else 0) + occurrences d r end.
(* Distances between consecutive times. *)
Definition spacings (l : list Qc) (ds : list Qc) : Prop :=
  length l = S (length ds) /\
  forall i a b d, nth_error l i = Some a -> nth_error l (S i) = Some b -> nth_error ds i = Some d -> d = Qcminus b a.
(* ks are the distinct values of l. *)
Definition distinct_values (l ks : list Qc) : Prop := NoDup ks /\ forall x, In x ks <-> In x l.
(* z is the integer closest to x, and the even one when x is half way between two *)
Definition nearest_even (x : Qc) (z : Z) : Prop :=
  Qclt (qabs (Qcminus x (qz z))) (qfrac 1 2) \/ qabs (Qcminus x (qz z)) = qfrac 1 2 /\ Z.even z = true.

(* The value at x on the straight line through (t0, v0) and (t1, v1). *)
Definition on_line (t0 v0 t1 v1 x v : Qc) : Prop :=
  Qcmult (Qcminus v v0) (Qcminus t1 t0) = Qcmult (Qcminus x t0) (Qcminus v1 v0).
(* The data has exactly the labels of the item, with the values given by f. *)
Definition data_by (d : data) (like : item) (f : string -> Qc -> Prop) : Prop :=
  match d with
  | DDict m => NoDup (map fst m) /\ (forall lb v, In (lb, v) m -> f lb v) /\ (forall lb, In lb (map fst m) <-> has_label like lb)
  | DList _ => False
  end.
(* Numeric point series with dictionary data, in order. *)
Definition dict_points (s : series) : Prop :=
  numeric (s_items s) /\ wf_points (s_items s) /\ (forall x, In x (s_items s) -> exists d, i_data x = Some (DDict d)).
