(* SpecLists.v -- SPECIFICATION vocabulary for series used as lists (C86). *)
From Verif Require Export SpecSeries Lists.

(* An item can follow another one: points later in time, slots in succession (but for one part in 10^9). *)
Definition can_follow (a b : item) : Prop :=
  (is_point a = true /\ is_point b = true /\ Qclt (i_t a) (i_t b)) \/
  (is_slot a = true /\ is_slot b = true /\ (i_t b = i_end a \/ within_tolerance (i_end a) (i_t b))).
(* In order, or in succession. *)
Definition in_sequence (l : list item) : Prop := consecutive can_follow l.
(* Whatever is there just before, and just after. *)
Definition fits (before : list item) (l : list item) (after : list item) : Prop := forall a x b y r r' r'' r''',
  (before = r ++ [a] -> l = x :: r' -> can_follow a x) /\ (after = b :: r'' -> l = r''' ++ [y] -> can_follow y b).
(* The position i, counted from the end if negative, divides the list in what is before and what is from it on. *)
Definition at_position (l : list item) (i : Z) (before : list item) (x : item) (after : list item) : Prop :=
  l = before ++ x :: after /\ Z.of_nat (length before) = (if Z.ltb i 0 then i + Z.of_nat (length l) else i)%Z.
(* A call which keeps the sequence. *)
Definition harmless (s : series) (o : lop) : Prop :=
  match o with
  | LCall (OInsert i _) => i = 0%Z \/ i = Z.of_nat (length (s_items s))
  | LCall _ => True
  | LSet i x => forall b y a, at_position (s_items s) i b y a -> fits b [x] a
  | LDel i => all_points (s_items s) \/ forall b y a, at_position (s_items s) i b y a -> b = [] \/ a = []
  | LIadd l => in_sequence l /\ fits (s_items s) l []
  | LImul n => (n <= 1)%Z \/ s_items s = []
  end.
Fixpoint all_harmless (e : env) (s : series) (os : list lop) : Prop :=
  match os with [] => True | o :: r => harmless s o /\ all_harmless e (fst (lstep e s o)) r end.
(* Equal data: the same values in the same order, or with the same labels. *)
Definition same_data (a b : data) : Prop :=
  match a, b with
  | DList x, DList y => x = y
  | DDict x, DDict y => forall k, dget k x = dget k y
  | _, _ => False
  end.
Definition well_keyed (x : item) : Prop := match i_data x with Some (DDict d) => NoDup (dkeys d) | _ => True end.
(* Equal items: at the same time and with the same data, if both have data. *)
Definition same_thing (x y : item) : Prop :=
  is_point x = is_point y /\ i_t x = i_t y /\ i_end x = i_end y /\ (forall a b, i_data x = Some a -> i_data y = Some b -> same_data a b).
(* Items which can be compared: two points, or two slots both with data or both without. *)
Definition comparable (x y : item) : Prop :=
  (is_point x = true /\ is_point y = true) \/ (is_slot x = true /\ is_slot y = true /\ (i_data x = None <-> i_data y = None)).
