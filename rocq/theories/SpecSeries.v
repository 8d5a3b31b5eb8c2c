(* SpecSeries.v -- SPECIFICATION vocabulary for the container properties (C01-C08, C16).
   Independent of the mutators of Series.v: it only looks at lists of items. *)
From Verif Require Export Items.

(* Strictly increasing: any element is smaller than any later one. *)
Definition strictly_increasing (l : list Qc) : Prop :=
  forall i j a b, i < j -> nth_error l i = Some a -> nth_error l j = Some b -> Qclt a b.

Definition times (l : list item) : list Qc := map i_t l.
Definition all_points (l : list item) : Prop := forall x, In x l -> is_point x = true.
Definition all_slots (l : list item) : Prop := forall x, In x l -> is_slot x = true.

(* Any two neighbours in the list are related. *)
Definition consecutive {A} (R : A -> A -> Prop) (l : list A) : Prop :=
  forall i a b, nth_error l i = Some a -> nth_error l (S i) = Some b -> R a b.

(* Slots in exact succession: each one starts where the previous ends. *)
Definition contiguous (l : list item) : Prop := consecutive (fun a b => i_t b = i_end a) l.

(* Absolute relative difference of at most one part in 10^9. *)
Definition within_tolerance (a b : Qc) : Prop :=
  Qcle (qabs (Qcminus a b)) (Qcmult (qfrac 1 1000000000) (qmax (qabs a) (qabs b))).
Definition nearly_contiguous (l : list item) : Prop :=
  consecutive (fun a b => i_t b = i_end a \/ within_tolerance (i_end a) (i_t b)) l.

(* Data of the same shape: lists of the same length or dictionaries with the same keys. *)
Definition same_shape (a b : data) : Prop :=
  match a, b with
  | DList x, DList y => length x = length y
  | DDict x, DDict y => forall k, In k (map fst x) <-> In k (map fst y)
  | _, _ => False
  end.
Definition same_item_shape (x y : item) : Prop :=
  i_cls x = i_cls y /\
  match i_data x, i_data y with
  | Some a, Some b => same_shape a b
  | None, None => True
  | _, _ => False
  end.

(* All the distances between neighbours are d. *)
Definition equally_spaced (d : Qc) (l : list Qc) : Prop :=
  consecutive (fun a b => Qcminus b a = d) l.

(* The list l with x at the position i, which is counted from the end when it is negative; beyond an end, x goes at that end. *)
Definition with_item_at (l : list item) (i : Z) (x : item) (l' : list item) : Prop :=
  exists before after, l = before ++ after /\ l' = before ++ x :: after /\
    ((0 <= i <= Z.of_nat (length l))%Z -> Z.of_nat (length before) = i) /\
    ((i < 0)%Z -> (0 <= Z.of_nat (length l) + i)%Z -> Z.of_nat (length after) = (- i)%Z) /\
    ((Z.of_nat (length l) < i)%Z -> after = []) /\
    ((i < 0)%Z -> (Z.of_nat (length l) + i < 0)%Z -> before = []).
