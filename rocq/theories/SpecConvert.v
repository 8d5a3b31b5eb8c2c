(* SpecConvert.v -- SPECIFICATION vocabulary for the conversions from dictionaries, JSON and data frames (C84, C85). *)
From Verif Require Export SpecAccess SpecOps Convert.

(* The key of a dictionary says an instant, on a timezone: datetimes have theirs, everything else is in UTC.  A text is a number of seconds
   if it can be read so, otherwise a date. *)
Definition says_time (w : dates) (k : ckey) (tz : string) (t : Qc) : Prop :=
  match k with
  | CKDate z x => tz = z /\ t = x
  | CKNum x => tz = "UTC"%string /\ t = x
  | CKText s => tz = "UTC"%string /\ (w_float w s = Some t \/ (w_float w s = None /\ w_read w s = Ok t))
  | CKOther => False
  end.
(* The value says the data: numbers by position or by label, or one number alone, with the label "value". *)
Definition says_data (v : pv) (d : data) : Prop :=
  match d with
  | DList l => v = VList (map VNum l)
  | DDict d => v = VDict (map (fun kv => (KS (fst kv), VNum (snd kv))) d) \/ exists q, v = VNum q /\ d = [("value"%string, q)]
  end.
(* A point, or a slot of the given unit, with these data and no indexes. *)
Definition is_item (w : dates) (unit : option tunit) (tz : string) (t : Qc) (d : data) (x : item) : Prop :=
  i_t x = t /\ i_tz x = tz /\ i_data x = Some d /\ i_idx x = [] /\
  match unit with
  | None => i_cls x = CDataTimePoint
  | Some u => i_cls x = CDataTimeSlot /\ i_unit x = u /\ i_end x = w_end w tz u t
  end.
(* The unit asked for. *)
Definition asks_unit (ut : unit_text) (a : unit_arg) (unit : option tunit) : Prop :=
  match a with
  | NoUnit => unit = None
  | IsUnit u => unit = Some u
  | NamedUnit s => (s = ""%string /\ unit = None) \/ (s <> ""%string /\ exists u, ut_parse ut s = Ok u /\ unit = Some u)
  end.
(* Dates are written and read back exactly for this item, as texts which are not numbers. *)
Definition readable_date (w : dates) (x : item) : Prop :=
  w_epoch w (i_t x) = i_t x /\ w_float w (w_text w (i_tz x) (i_t x)) = None /\ w_read w (w_text w (i_tz x) (i_t x)) = Ok (i_t x).
(* The labels of the data of an item are different from each other. *)
Definition labels_once (x : item) : Prop := match i_data x with Some (DDict d) => NoDup (map fst d) | Some (DList _) => True | None => False end.

(* ---- data frames ---- *)
(* The instant of a row: dates without a timezone are in UTC. *)
Definition row_at (x : stamp) (tz : string) (t : Qc) : Prop :=
  match x with Aware z u => tz = z /\ t = u | Naive u => tz = "UTC"%string /\ t = u | NoDate => False end.
(* The data of a row have, under the name of each column, the value of its cell. *)
Definition row_is (columns : list string) (cells : list (option Qc)) (d : data) : Prop :=
  exists m, d = DDict m /\ NoDup (map fst m) /\ forall lb q, In (lb, q) m <-> exists i, nth_error columns i = Some lb /\ nth_error cells i = Some (Some q).
(* All the rows have a cell for each column, whose names are different. *)
Definition rectangular (df : frame) : Prop := NoDup (fr_columns df) /\ forall r, In r (fr_rows df) -> length (snd r) = length (fr_columns df).
(* A number as text. *)
Fixpoint digits (s : string) : Prop := match s with EmptyString => True | String a r => digit a = true /\ digits r end.
(* What the frame of a series says of an item: its values, and its data loss. *)
Definition told (x : item) (lb : string) (v : Qc) : Prop := has_value x lb v \/ (lb = "data_loss"%string /\ data_loss x = Some v).
(* No label is named as the data loss, if there is any. *)
Definition losses_apart (l : list item) : Prop := forall x y, In x l -> In y l -> data_loss x <> None -> ~ has_label y "data_loss"%string.
(* No item has a data loss, or all of them have one (and no label is named so). *)
Definition losses_alike (l : list item) : Prop :=
  (forall x, In x l -> data_loss x = None) \/
  (forall x, In x l -> (exists v, data_loss x = Some v) /\ ~ has_label x "data_loss"%string).
(* The frequencies: a number of times (none is one) a letter; these are the calendar ones, with the letter of the unit.. *)
Definition calendar_names : list (string * string) := [("D", "D"); ("M", "M"); ("MS", "M"); ("Y", "Y"); ("YS", "Y"); ("A", "Y"); ("AS", "Y")]%string.
(* ..and these are not *)
Definition physical_names : list (string * string) := [("H", "h"); ("T", "m"); ("min", "m"); ("S", "s")]%string.
Definition times_of_unit (n : string) : string := if String.eqb n "" then "1"%string else n.
Definition freq_is (names : list (string * string)) (f : result (option string)) (unit : string) : Prop :=
  exists n name letter, digits n /\ In (name, letter) names /\ f = Ok (Some (n ++ name)%string) /\ unit = (times_of_unit n ++ letter)%string.
