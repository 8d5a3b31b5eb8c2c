(* SpecEvents.v -- SPECIFICATION vocabulary for the anomalous events (C58). *)
From Verif Require Export SpecRecon Events.

(* The anomaly index of the item is at or above the threshold. *)
Definition anomalous (thr : Qc) (l : list item) (i : nat) : Prop :=
  exists x v, nth_error l i = Some x /\ dget "anomaly" (i_idx x) = Some (Some v) /\ Qcle thr v.
(* An event: from the anomalous item a to the anomalous item b, with no more than gap items in a row which are not anomalous,
   and not extensible on either side. *)
Definition event (A : nat -> Prop) (n gap a b : nat) : Prop :=
  a <= b < n /\ A a /\ A b /\
  (forall k, a <= k -> k + gap <= b -> exists j, k <= j <= k + gap /\ A j) /\
  (forall j, j < a -> a <= j + gap + 1 -> ~ A j) /\
  (forall j, b < j -> j <= b + gap + 1 -> j < n -> ~ A j).
(* More than gap items follow: the event is over before the end of the series. *)
Definition over (n gap b : nat) : Prop := b + gap + 1 < n.
(* The items have data and a known anomaly index. *)
Definition with_anomaly (x : item) : Prop := i_data x <> None /\ exists v, dget "anomaly" (i_idx x) = Some (Some v).
(* The same item but for the given index. *)
Definition same_but (k : string) (x y : item) : Prop :=
  same_shell x y /\ i_data y = i_data x /\ forall k', k' <> k -> dget k' (i_idx y) = dget k' (i_idx x).
Definition index_is (k : string) (v : Qc) (x : item) : Prop := dget k (i_idx x) = Some (Some v).
(* The item belongs to an event of at least p items. *)
Definition in_event (A : nat -> Prop) (n gap : nat) (p : Z) (i : nat) : Prop :=
  exists a b, event A n gap a b /\ a <= i <= b /\ (p <= Z.of_nat b - Z.of_nat a + 1)%Z.
(* The same items, marked with 1 under the given index where M holds and with 0 elsewhere; the rest is unchanged. *)
Definition marked_where (M : nat -> Prop) (k : string) (l l' : list item) : Prop :=
  length l' = length l /\ forall i x y, nth_error l i = Some x -> nth_error l' i = Some y -> same_but k x y /\ (M i -> index_is k q1 y) /\ (~ M i -> index_is k q0 y).
