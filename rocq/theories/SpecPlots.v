(* SpecPlots.v -- SPECIFICATION vocabulary for the plots (C80). *)
From Verif Require Export SpecCsv Plots.

(* What is chosen among what is available. *)
Definition picks (c : choice) (available : string -> Prop) (l : list string) : Prop :=
  match c with
  | All => NoDup l /\ forall k, In k l <-> available k
  | Nothing => l = []
  | These m => l = m /\ forall k, In k m -> available k
  end.
(* Some item has the index (with or without a value). *)
Definition index_in (l : list item) (k : string) : Prop := exists x, In x l /\ In k (dkeys (i_idx x)).

(* A row of the plot for an item: its time, the value of each of the labels and of each of the indexes, if it has one. *)
Definition shows_value (x : item) (lb : string) (c : cell) : Prop := exists v, c = CNum v /\ has_value x lb v.
Definition shows_index (x : item) (k : string) (c : cell) : Prop :=
  (exists v, c = CNum v /\ dget k (i_idx x) = Some (Some v)) \/ (c = CNull /\ forall v, dget k (i_idx x) <> Some (Some v)).
Definition shows_item (labels indexes : list string) (x : item) (r : row_) : Prop :=
  w_t r = i_t x /\ w_tz r = i_tz x /\ exists cs ks, w_cells r = cs ++ ks /\ Forall2 (shows_value x) labels cs /\ Forall2 (shows_index x) indexes ks.

(* A row for a group of items: in the middle of it, with the least value, the mean and the greatest value of each of the labels, and the
   mean of each of the indexes, where a missing value counts as zero. *)
Definition shows_band (l : list item) (lb : string) (c : cell) : Prop :=
  exists lo hi vs, c = CBand lo (mean vs) hi /\ is_min lb l lo /\ is_max lb l hi /\ column lb l vs.
Definition index_or_zero (k : string) (x : item) (w : Qc) : Prop := dget k (i_idx x) = Some (Some w) \/ (w = q0 /\ forall v, dget k (i_idx x) <> Some (Some v)).
Definition shows_index_band (l : list item) (k : string) (c : cell) : Prop := exists ws, c = CBand q0 (mean ws) (mean ws) /\ Forall2 (index_or_zero k) l ws.
Definition finish (x : item) : Qc := if is_slot x then i_end x else i_t x.
Definition shows_group (labels indexes : list string) (l : list item) (r : row_) : Prop :=
  (exists a b, nth_error l 0 = Some a /\ last_item l = Some b /\ w_t r = Qcdiv (Qcplus (i_t a) (finish b)) q2 /\ w_tz r = i_tz b) /\
  exists cs ks, w_cells r = cs ++ ks /\ Forall2 (shows_band l) labels cs /\ Forall2 (shows_index_band l) indexes ks.
(* The items from position k * n, n of them. *)
Definition nth_group (n k : nat) (l : list item) : list item := firstn n (skipn (k * n) l).

(* No commas. *)
Definition no_comma (s : string) : Prop := ~ In ","%char (chars s).

(* Whether the items are aggregated, and by how many: as asked, or, above the threshold, by the power of ten just above the number of times
   the threshold is contained in the number of items. *)
Definition single (threshold n : nat) (aggregate : option bool) (by_ : option nat) : Prop := aggregate = Some false \/ by_ = Some 0 \/ (by_ = None /\ n <= threshold).
Definition grouped_by (threshold n : nat) (aggregate : option bool) (by_ : option nat) (m : nat) : Prop :=
  aggregate <> Some false /\ 0 < m /\ (by_ = Some m \/ (by_ = None /\ threshold < n /\ exists d, m = 10 ^ S d /\ 10 ^ d <= Nat.div n threshold < m)).
