(* SpecAccess.v -- SPECIFICATION vocabulary for access, slicing, views and conversions
   (C09-C20): Python's list indexing and slicing, well-formed contents. *)
From Verif Require Export SpecSeries.

(* The Python reference manual: a negative index counts from the end; bounds are clamped to
   [0, n]; l[a:b] are the items with a <= position < b. *)
Definition py_index {A} (l : list A) (i : Z) : option A :=
  let n := Z.of_nat (length l) in
  if (0 <=? i)%Z then nth_error l (Z.to_nat i)
  else if (0 <=? i + n)%Z then nth_error l (Z.to_nat (i + n)) else None.
Definition py_clamp (n : Z) (i : Z) : Z :=
  if (i <? 0)%Z then Z.max 0 (i + n) else Z.min i n.
Definition py_slice {A} (l : list A) (from to : option Z) : list A :=
  let n := Z.of_nat (length l) in
  let a := match from with Some i => py_clamp n i | None => 0%Z end in
  let b := match to with Some i => py_clamp n i | None => n end in
  firstn (Z.to_nat (b - a)) (skipn (Z.to_nat a) l).

(* Contents of a healthy series of points: in order, of the same type and shape. *)
Definition wf_points (l : list item) : Prop :=
  all_points l /\ strictly_increasing (times l) /\ (forall x y, In x l -> In y l -> same_item_shape x y).

(* Contents of a healthy series of slots: of positive length, in exact succession, with the same unit,
   timezone, type and shape. *)
Definition wf_slots (l : list item) : Prop :=
  all_slots l /\ contiguous l /\ (forall x, In x l -> Qclt (i_t x) (i_end x)) /\
  (forall x y, In x l -> In y l -> same_item_shape x y /\ i_unit x = i_unit y /\ i_tz x = i_tz y).
Definition wf_items (l : list item) : Prop := wf_points l \/ wf_slots l.

(* Inside the time interval: half open for points, entirely contained for slots. *)
Definition in_interval (from to : option Qc) (x : item) : Prop :=
  (forall a, from = Some a -> Qcle a (i_t x)) /\
  (forall b, to = Some b -> if is_slot x then Qcle (i_end x) b else Qclt (i_t x) b).

(* l' contains exactly the elements of l satisfying P, in the same order. *)
Inductive filtered {A} (P : A -> Prop) : list A -> list A -> Prop :=
| filt_nil : filtered P [] []
| filt_keep x l l' : P x -> filtered P l l' -> filtered P (x :: l) (x :: l')
| filt_drop x l l' : ~ P x -> filtered P l l' -> filtered P (x :: l) l'.

(* The unit library always parses a number of seconds. *)
From Verif Require Import Series.
Definition parses_units (e : env) : Prop := forall d, exists u, unit_of_s e d = Ok u.
