(* SpecLstm.v -- SPECIFICATION vocabulary for the windows, the features and the normalisation of the LSTM forecaster (C51, C56). *)
From Coq Require Export Sorting.Sorted.
From Verif Require Export SpecForecast Lstm.

(* The item i has a whole window before it, and neither it nor an item of the window is left out because of its data loss. *)
Definition trainable (limit : option Qc) (w : nat) (l : list item) (i : nat) : Prop :=
  w <= i < length l /\ forall j x, i - w <= j <= i -> nth_error l j = Some x -> included limit x.
(* The w items before the position i, in order. *)
Definition window_before (w : nat) (l : list item) (i : nat) (win : list item) : Prop :=
  length win = w /\ forall k, k < w -> nth_error win k = nth_error l (i - w + k).
(* The values of the labels in the item i. *)
Definition own_values (labels : list string) (l : list item) (i : nat) (vs : list Qc) : Prop :=
  exists x, nth_error l i = Some x /\ Forall2 (has_value x) labels vs.
(* The data of the item i restricted to the labels. *)
Definition own_context (labels : list string) (l : list item) (i : nat) (d : dict Qc) : Prop :=
  exists x, nth_error l i = Some x /\ NoDup (dkeys d) /\ (forall lb, In lb (dkeys d) <-> In lb labels) /\ forall lb v, In (lb, v) d -> has_value x lb v.

(* The features of the item k of a window. Value: the one of the label, zero if the item does not have it. *)
Definition value_feature (win : list item) (k : nat) (lb : string) (v : Qc) : Prop :=
  exists x, nth_error win k = Some x /\ (has_value x lb v \/ (~ has_label x lb /\ v = q0)).
(* Difference: the slope between the neighbours of the item in the window (the item itself in place of a missing one), but 1
   if it is flat, and zero if one of them does not have the label. *)
Definition diff_feature (win : list item) (k : nat) (lb : string) (v : Qc) : Prop :=
  exists x y, let a := k - 1 in let b := Nat.min (k + 1) (length win - 1) in nth_error win a = Some x /\ nth_error win b = Some y /\ a < b /\
    ((exists vx vy, has_value x lb vx /\ has_value y lb vy /\ (vx = vy /\ v = q1 \/ vx <> vy /\ Qcmult v (qn (b - a)) = Qcminus vy vx)) \/
     ((~ has_label x lb \/ ~ has_label y lb) /\ v = q0)).
Definition hour_feature (hour : string -> Qc -> Z) (win : list item) (k : nat) (v : Qc) : Prop :=
  exists x, nth_error win k = Some x /\ Qcmult v (qz 24) = qz (hour (i_tz x) (i_t x)).
Definition features_of (hour : string -> Qc -> Z) (features labels : list string) (win : list item) (k : nat) (row : list Qc) : Prop :=
  exists vs ds hs, row = vs ++ ds ++ hs /\
    (if has_feature "values" features then Forall2 (value_feature win k) labels vs else vs = []) /\
    (if has_feature "diffs" features then Forall2 (diff_feature win k) labels ds else ds = []) /\
    (if has_feature "hours" features then exists h, hs = [h] /\ hour_feature hour win k h else hs = []).
Definition known_features (features : list string) : Prop := forall f, In f features -> f = "values"%string \/ f = "diffs"%string \/ f = "hours"%string.
(* Items with a dictionary of distinct labels. *)
Definition with_dict (x : item) : Prop := exists d, i_data x = Some (DDict d) /\ NoDup (dkeys d).

(* The window, followed by an item one step later with the context data, if any. *)
Definition with_context_after (c : cal) (r : option res) (ctx : option (dict Qc)) (win win' : list item) : Prop :=
  match ctx with
  | None | Some [] => win' = win
  | Some d => exists u last x, r = Some (RUnit u) /\ nth_error win (length win - 1) = Some last /\ is_slot last = false /\ win' = win ++ [x] /\
      i_t x = unit_shift c u (i_t last) 1 /\ i_tz x = i_tz last /\ i_data x = Some (DDict d)
  end.

(* The item with each value mapped to the range 0..1: lo to 0 and hi to 1. *)
Definition rescaled (lo hi : string -> Qc) (x y : item) : Prop :=
  same_shell x y /\ i_idx y = i_idx x /\ (forall lb, has_label y lb <-> has_label x lb) /\
  forall lb v u, has_value x lb v -> has_value y lb u -> Qcmult u (Qcminus (hi lb) (lo lb)) = Qcminus v (lo lb).
(* Minimum and maximum of each label of the items. *)
Definition ranges (l : list item) (lo hi : string -> Qc) : Prop := forall lb, label_in l lb -> is_min lb l (lo lb) /\ is_max lb l (hi lb).
(* The label is not constant. *)
Definition varies (l : list item) (lb : string) : Prop := exists x y vx vy, In x l /\ In y l /\ has_value x lb vx /\ has_value y lb vy /\ vx <> vy.
(* All the labels (with no context), or one of them. *)
Definition valid_target (labels : list string) (t : target) (with_context : bool) : Prop :=
  match t with TAll => with_context = false | TLabel lb => In lb labels | TLabels _ => False end.
