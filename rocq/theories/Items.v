(* Items.v -- MODEL of the items of a time series (datastructures.py 26-597).

   Simplifications: only one-dimensional (time) items; epochs and data values are
   exact rationals; data values are numeric; the `dt` views of the timestamps are
   not represented (they are functions of t and tz computed by propertime). *)
From Verif Require Export Base.

(* datastructures.py 87, 281, 395, 580: the four classes a time series accepts. *)
Inductive icls := CTimePoint | CDataTimePoint | CTimeSlot | CDataTimeSlot.

(* isinstance(x, TimePoint) / isinstance(x, TimeSlot): datastructures.py 281, 580
   (DataTimePoint is a subclass of TimePoint, DataTimeSlot of TimeSlot). *)
Definition cls_is_point (c : icls) : bool :=
  match c with CTimePoint | CDataTimePoint => true | _ => false end.
Definition cls_is_slot (c : icls) : bool := negb (cls_is_point c).

(* isinstance(x, C) for x of class c *)
Definition cls_isinstance (c C : icls) : bool :=
  match c, C with
  | CTimePoint, CTimePoint => true
  | CDataTimePoint, (CTimePoint | CDataTimePoint) => true
  | CTimeSlot, CTimeSlot => true
  | CDataTimeSlot, (CTimeSlot | CDataTimeSlot) => true
  | _, _ => false
  end.

(* units.py 112-204: a time unit.  Calendar units are only names here; their
   arithmetic (propertime) is not modelled, it enters as a parameter where used. *)
Inductive tunit := UPhys (seconds : Qc) | UCal (name : string).
Definition tunit_eqb (a b : tunit) : bool :=
  match a, b with
  | UPhys x, UPhys y => qeqb x y
  | UCal x, UCal y => String.eqb x y
  | _, _ => false
  end.

(* datastructures.py 237-243, 536-542: the data, as a list or as a dictionary. *)
Inductive data := DList (l : list Qc) | DDict (d : dict Qc).

(* datastructures.py 87-171 (t, tz), 316-341 and 407-433 (start, end, unit),
   187-221 and 489-523 (data and indexes); `weight` is attached by
   transformations.py 300-330 and read by operations.py 139-143.
   For points i_end = i_t and i_unit is meaningless. i_data = None iff the class
   has no `data` attribute. *)
Record item := mkItem {
  i_cls : icls;
  i_t : Qc;
  i_end : Qc;
  i_unit : tunit;
  i_tz : string;
  i_data : option data;
  i_idx : dict (option Qc);
  i_weight : option Qc }.

Definition is_point (x : item) : bool := cls_is_point (i_cls x).
Definition is_slot (x : item) : bool := cls_is_slot (i_cls x).

Definition set_data (x : item) (d : option data) : item :=
  mkItem (i_cls x) (i_t x) (i_end x) (i_unit x) (i_tz x) d (i_idx x) (i_weight x).
Definition set_idx (x : item) (ix : dict (option Qc)) : item :=
  mkItem (i_cls x) (i_t x) (i_end x) (i_unit x) (i_tz x) (i_data x) ix (i_weight x).
Definition set_item_tz (x : item) (tz : string) : item :=
  mkItem (i_cls x) (i_t x) (i_end x) (i_unit x) tz (i_data x) (i_idx x) (i_weight x).

(* item.data: AttributeError on classes with no data (datastructures.py 654-656) *)
Definition item_data (x : item) : result data :=
  match i_data x with Some d => Ok d | None => Err AttributeError end.

(* datastructures.py 254-261, 553-560: the data_loss property; None both if the
   index is missing and if it is set to None. *)
Definition data_loss (x : item) : option Qc :=
  match dget "data_loss" (i_idx x) with Some v => v | None => None end.

(* datastructures.py 263-269, 562-568: data_labels() of an item. *)
Definition data_labels_of (d : data) : list string :=
  match d with
  | DDict d => str_sort (dkeys d)
  | DList l => map nat_str (seq 0 (length l))
  end.

(* int(label) of a decimal string; None models the ValueError. *)
Definition digit_val (c : Ascii.ascii) : option nat :=
  let n := Ascii.nat_of_ascii c in
  if (Nat.leb 48 n && Nat.leb n 57)%bool then Some (n - 48) else None.
Fixpoint parse_nat_aux (acc : nat) (s : string) : option nat :=
  match s with
  | EmptyString => Some acc
  | String c r => match digit_val c with
                  | Some v => parse_nat_aux (acc * 10 + v) r
                  | None => None
                  end
  end.
Definition parse_nat (s : string) : option nat :=
  match s with EmptyString => None | _ => parse_nat_aux 0 s end.

(* datastructures.py 271-278, 570-577: _data_by_label.  On a list data[label]
   raises TypeError and data[int(label)] is tried: ValueError if not a number,
   IndexError if out of range (negative labels are not modelled). *)
Definition data_by_label (d : data) (label : string) : result Qc :=
  match d with
  | DDict d => match dget label d with Some v => Ok v | None => Err KeyError end
  | DList l => match parse_nat label with
               | None => Err ValueError
               | Some n => match nth_error l n with Some v => Ok v | None => Err IndexError end
               end
  end.
Definition item_by_label (x : item) (label : string) : result Qc :=
  do d <- item_data x; data_by_label d label.

(* Python truth value of a list / dict *)
Definition data_truthy (d : data) : bool :=
  match d with DList [] => false | DDict [] => false | _ => true end.

(* list == list, dict == dict (order insensitive), list == dict is False *)
Fixpoint qlist_eqb (a b : list Qc) : bool :=
  match a, b with
  | [], [] => true
  | x :: a', y :: b' => qeqb x y && qlist_eqb a' b'
  | _, _ => false
  end.
Definition dict_eqb (a b : dict Qc) : bool :=
  Nat.eqb (length a) (length b) &&
  forallb (fun kv => match dget (fst kv) b with Some v => qeqb (snd kv) v | None => false end) a.
Definition data_eqb (a b : data) : bool :=
  match a, b with
  | DList x, DList y => qlist_eqb x y
  | DDict x, DDict y => dict_eqb x y
  | _, _ => false
  end.

(* datastructures.py 60-69, 229-235 (points), 349-354, 531-534 (slots): item equality.
   Timezone and indexes are not compared. A point without data compared with one
   with data only compares the coordinates (229-235). *)
Definition item_eqb (x y : item) : bool :=
  (match i_data x, i_data y with
   | Some a, Some b => data_eqb a b
   | _, _ => true
   end) && qeqb (i_t x) (i_t y) && qeqb (i_end x) (i_end y).

(* utilities.py 524-525: _is_close with the default tolerances. *)
Definition is_close (a b : Qc) : bool :=
  qleb (qabs (Qcminus a b)) (qmax (Qcmult (qfrac 1 1000000000) (qmax (qabs a) (qabs b))) q0).

(* datastructures.py 437-444: TimeSlot.__succedes__ (self = x, other = y). *)
Definition succeeds (x y : item) : bool :=
  qeqb (i_end y) (i_t x) || is_close (i_end y) (i_t x).

(* datastructures.py 150-154: TimePoint.__gt__ *)
Definition point_gt (x y : item) : bool := qltb (i_t y) (i_t x).
