(* SpecGeneric.v -- SPECIFICATION vocabulary for generic points, slots and series (C88). *)
From Verif Require Export SpecSeries Generic.

(* What the items are: numbers have one value, points and slots at least one coordinate, and a slot as many for the start as for the end. *)
Definition g_wf (x : gitem) : Prop :=
  g_at x <> [] /\ (g_cls x = GInt \/ g_cls x = GFloat -> length (g_at x) = 1) /\ (g_slot x = true -> length (g_to x) = length (g_at x)).
Inductive gkind := KInt | KFloat | KPoint | KSlot.
Definition g_kind (x : gitem) : gkind := match g_cls x with GInt => KInt | GFloat => KFloat | GPoint | GDataPoint => KPoint | GSlot | GDataSlot => KSlot end.
(* The only value of a number or of a point. *)
Definition g_value (x : gitem) (v : Qc) : Prop := g_at x = [v].
(* An item can follow another one of the same kind: a slot starts exactly where the other one ends, in all the dimensions; a number or a point is greater,
   which only makes sense in one dimension. *)
Definition g_can_follow (a b : gitem) : Prop :=
  g_kind a = g_kind b /\ (if g_slot b then g_at b = g_to a else exists u v, g_value a u /\ g_value b v /\ Qclt u v).
Definition g_sequence (l : list gitem) : Prop := consecutive g_can_follow l.
Definition g_new_item (o : gop) (x : gitem) : Prop := o = GAppend x \/ exists i, o = GInsert i x.
(* Items are only inserted at the two ends. *)
Fixpoint g_at_ends (s : gseries) (os : list gop) : Prop :=
  match os with
  | [] => True
  | o :: r => (forall i x, o = GInsert i x -> i = 0%Z \/ i = Z.of_nat (length (gs_items s))) /\ g_at_ends (fst (g_step s o)) r
  end.
(* The same class and data of the same shape (or no data). *)
Definition g_alike (x y : gitem) : Prop :=
  g_cls x = g_cls y /\ match g_data x, g_data y with Some a, Some b => same_shape a b | None, None => True | _, _ => False end.
(* The mean of the differences between the coordinates. *)
Definition mean_difference (a b : list Qc) (m : Qc) : Prop :=
  exists ds, Forall2 (fun p d => d = (snd p - fst p)%Qc) (combine a b) ds /\ (m * qn (length a))%Qc = fold_right Qcplus q0 ds.
Definition g_last_of (l : list gitem) (x : gitem) : Prop := exists r, l = r ++ [x].
Fixpoint total_length (l : list gitem) : Qc := match l with [] => q0 | x :: r => (g_length x + total_length r)%Qc end.
(* What the arguments of a slot say. *)
Inductive slot_says (same : bool) : slot_args -> list Qc -> list Qc -> option gunit -> Prop :=
| says_end sd s ed e u : length s = length e -> (s <> e \/ (sd = true /\ ed = true /\ same = false)) -> u <> GJunkUnit ->
    slot_says same (GGiven sd s, GGiven ed e, u) s e (match u with GUnit u => Some u | _ => None end)
| says_unit x v : slot_says same (GGiven false [x], GNone, GUnit (GVal v)) [x] [(x + v)%Qc] (Some (GVal v)).
(* Equal numbers or points: the same values, and the same data if both have data. *)
Definition g_same (x y : gitem) : Prop :=
  g_point x = g_point y /\ g_at x = g_at y /\ (forall a b, g_data x = Some a -> g_data y = Some b -> data_eqb a b = true).
(* The position i, counted from the end if negative. *)
Definition g_position (l : list gitem) (i : Z) (before : list gitem) (x : gitem) (after : list gitem) : Prop :=
  l = before ++ x :: after /\ Z.of_nat (length before) = (if Z.ltb i 0 then i + Z.of_nat (length l) else i)%Z.
(* Without data: a number, a point or a slot. *)
Definition g_plain (x : gitem) : Prop := g_data x = None /\ g_cls x <> GDataPoint /\ g_cls x <> GDataSlot.
