(* SpecOps.v -- SPECIFICATION vocabulary for the operations (C21-C35): the values of a label,
   series of numeric data, histories of calls. *)
From Verif Require Export SpecAccess Ops.

(* The label has value v in the item: a key of a dictionary, or a position of a list. *)
Definition has_value (x : item) (label : string) (v : Qc) : Prop :=
  match i_data x with
  | Some (DDict d) => In (label, v) d
  | Some (DList l) => exists n, label = nat_str n /\ nth_error l n = Some v
  | None => False
  end.
Definition has_label (x : item) (label : string) : Prop := exists v, has_value x label v.

(* vs are the values of the label along the items *)
Definition column (label : string) (l : list item) (vs : list Qc) : Prop :=
  Forall2 (fun x v => has_value x label v) l vs.
Fixpoint total (vs : list Qc) : Qc := match vs with [] => q0 | v :: r => Qcplus v (total r) end.

(* A point or slot with numeric data: at least one label, distinct labels. *)
Definition numeric_item (x : item) : Prop :=
  (i_cls x = CDataTimePoint \/ i_cls x = CDataTimeSlot) /\
  match i_data x with
  | Some (DDict d) => d <> [] /\ NoDup (map fst d)
  | Some (DList l) => l <> []
  | None => False
  end.
(* Non-empty, numeric and with the same labels everywhere. *)
Definition numeric (l : list item) : Prop :=
  l <> [] /\ (forall x, In x l -> numeric_item x) /\ (forall x y, In x l -> In y l -> same_item_shape x y).

(* The series is what some history of calls (with numeric items, whatever the outcomes) leaves. *)
Definition numeric_op (o : op) : Prop :=
  match o with OAppend x => numeric_item x | OInsert _ x => numeric_item x | _ => True end.
Definition from_history (e : env) (s : series) : Prop :=
  exists tz os, s = run e (empty_series tz) os /\ (forall o, In o os -> numeric_op o).
(* The series is the one built from its items, in order: TimeSeries( *items ). *)
Definition built (e : env) (s : series) : Prop := exists tz, ts_new e tz (s_items s) = Ok s.
(* The series returned by an operation: built from its items on an object with no settings. *)
Definition fresh (e : env) (s : series) : Prop := ts_new e None (s_items s) = Ok s.

(* Same class, time, unit and timezone. *)
Definition same_time (x y : item) : Prop :=
  i_cls y = i_cls x /\ i_t y = i_t x /\ i_end y = i_end x /\ i_unit y = i_unit x /\ i_tz y = i_tz x.

(* The name of a computed label: with a postfix for dictionaries, the same position for lists. *)
Definition named (like : item) (p : string) (label : string) : string :=
  match i_data like with Some (DList _) => label (* position *) | _ => (label ++ "_" ++ p)%string end.

(* The values of y are obtained from those of x, label by label, and there are no other labels. *)
Definition derived (x y : item) (f : string -> Qc -> Qc) : Prop :=
  forall label w, has_value y label w <-> exists v, has_value x label v /\ w = f label v.
(* The same item, as far as anyone can read: time, indexes and the value of every label. *)
Definition same_contents (x y : item) : Prop :=
  same_time x y /\ i_idx y = i_idx x /\ forall label v, has_value x label v <-> has_value y label v.
(* The labels of the items of the list. *)
Definition label_in (l : list item) (label : string) : Prop := exists x, In x l /\ has_label x label.

(* Extremes of a label: a value that occurs and bounds the others. *)
Definition is_max (lb : string) (l : list item) (M : Qc) : Prop :=
  (exists x, In x l /\ has_value x lb M) /\ (forall x v, In x l -> has_value x lb v -> Qcle v M).
Definition is_min (lb : string) (l : list item) (m : Qc) : Prop :=
  (exists x, In x l /\ has_value x lb m) /\ (forall x v, In x l -> has_value x lb v -> Qcle m v).

(* a dictionary with one entry for each label of the series *)
Definition by_label {A} (l : list item) (m : dict A) (P : string -> A -> Prop) : Prop :=
  (forall lb, In lb (map fst m) <-> label_in l lb) /\ (forall lb a, dget lb m = Some a -> P lb a).

(* The weights of the items, and sum of values times weights. *)
Definition weights (l : list item) (ws : list Qc) : Prop := Forall2 (fun x w => i_weight x = Some w) l ws.
Definition wtotal (vs ws : list Qc) : Qc := total (map (fun p => Qcmult (fst p) (snd p)) (combine vs ws)).


(* The values of y are those given by f for each label of like, renamed, and there are no others. *)
Definition is_list (x : item) : bool := match i_data x with Some (DList _) => true | _ => false end.
Definition values_by (like y : item) (p : string) (f : string -> Qc -> Prop) : Prop :=
  is_list y = is_list like /\
  forall label w, has_value y label w <-> exists lb, has_label like lb /\ label = named like p lb /\ f lb w.
(* The seconds parser is exact, and the interval has at most seven decimals. *)
Definition exact_units (e : env) : Prop := forall d, Qclt q0 d -> unit_of_s e d = Ok (UPhys d).
Definition seven_decimals (d : Qc) : Prop := exists k : Z, d = Qcdiv (qz k) (qz 10000000).

(* ---- merging ---- *)
(* vs are the values of the label in those of the items which have it, in order *)
Inductive collected (lb : string) : list item -> list Qc -> Prop :=
| col_nil : collected lb [] []
| col_has x l v vs : has_value x lb v -> collected lb l vs -> collected lb (x :: l) (v :: vs)
| col_none x l vs : ~ has_label x lb -> collected lb l vs -> collected lb (x :: l) vs.
Definition mean (vs : list Qc) : Qc := Qcdiv (total vs) (qn (length vs)).
(* the same for a data index, where it is set and not None *)
Inductive collected_idx (ix : string) : list item -> list Qc -> Prop :=
| coli_nil : collected_idx ix [] []
| coli_has x l v vs : dget ix (i_idx x) = Some (Some v) -> collected_idx ix l vs -> collected_idx ix (x :: l) (v :: vs)
| coli_none x l vs : (forall v, dget ix (i_idx x) <> Some (Some v)) -> collected_idx ix l vs -> collected_idx ix (x :: l) vs.
(* the items of the series at time t, one for each series *)
Definition items_at (ss : list series) (t : Qc) (xs : list item) : Prop :=
  Forall2 (fun s x => In x (s_items s) /\ i_t x = t) ss xs.
(* the timestamps of the series are contiguous parts of one time line *)
Definition on_common_grid (ss : list series) : Prop :=
  exists grid, strictly_increasing grid /\
    forall s, In s ss -> exists before after, grid = before ++ times (s_items s) ++ after.
Definition common_time (ss : list series) (t : Qc) : Prop := forall s, In s ss -> In t (times (s_items s)).

(* ---- series for the statements ---- *)
(* a numeric series with its items in order, as any history of calls leaves it *)
Definition healthy (e : env) (s : series) : Prop :=
  from_history e s /\ numeric (s_items s) /\ wf_items (s_items s).
(* a series with constant sampling interval d: points d seconds apart (with d parsed exactly by the
   unit library), or slots of d seconds *)
Definition regular (e : env) (s : series) (d : Qc) : Prop :=
  built e s /\ numeric (s_items s) /\ Qclt q0 d /\
  ((wf_points (s_items s) /\ equally_spaced d (times (s_items s)) /\ seven_decimals d /\ unit_of_s e d = Ok (UPhys d)) \/
   (wf_slots (s_items s) /\ forall x, In x (s_items s) -> i_unit x = UPhys d /\ i_end x = Qcplus (i_t x) d)).
(* the offset argument gives the value o for the label: a non-zero number (dictionary data only), or
   a dictionary with the label *)
Definition offset_gives (k : konst) (like : item) (lb : string) (o : Qc) : Prop :=
  match k with
  | KNum q => q <> q0 /\ (exists d, i_data like = Some (DDict d)) /\ o = q
  | KDict d => dget lb d = Some o
  end.
(* the constant argument gives o for the label: any number, or a dictionary with the label *)
Definition const_gives (k : konst) (lb : string) (o : Qc) : Prop :=
  match k with KNum q => o = q | KDict d => dget lb d = Some o end.
(* an item of the result: at the same place in time as x and with its indexes *)
Definition in_place_of (x y : item) : Prop := same_time x y /\ i_idx y = i_idx x.
(* the factor or offset for a label: a number for all the labels, or a dictionary (others: the default) *)
Definition setting (k : konst) (default : Qc) (lb : string) : Qc :=
  match k with KNum q => q | KDict d => match dget lb d with Some q => q | None => default end end.
(* the label takes at least two values *)
Definition varies (l : list item) (lb : string) : Prop :=
  exists x y v w, In x l /\ In y l /\ has_value x lb v /\ has_value y lb w /\ v <> w.
(* v, mapped linearly from [lo, hi] to [a, b] *)
Definition mapped (lo hi a b v : Qc) : Qc := Qcplus a (Qcmult (Qcdiv (Qcminus v lo) (Qcminus hi lo)) (Qcminus b a)).
(* the character does not occur *)
Fixpoint no_char (c : ascii) (s : string) : Prop :=
  match s with EmptyString => True | String a r => a <> c /\ no_char c r end.
