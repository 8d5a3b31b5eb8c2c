(* Convert.v -- MODEL of the conversions of a time series from dictionaries (datastructures.py 1524-1565), to and from JSON
   (1575-1587) and to and from Pandas data frames (1612-1751).

   JSON documents are those of Save.v (the json module writes and reads back the same document).  Of a data frame we
   keep the index, the names of the columns, the cells and what Pandas infers for its frequency. *)
From Verif Require Export Access Intervals Save.

(* The dates (propertime, datetime): the instant a datetime keeps of an epoch, the end of the slot which starts at an instant in a
   timezone, float() of a string, s_from_dt(dt_from_str()) of a string and str_from_dt() of an instant in a timezone. *)
Record dates := mkDates {
  w_epoch : Qc -> Qc;
  w_end : string -> tunit -> Qc -> Qc;
  w_float : string -> option Qc;
  w_read : string -> result Qc;
  w_text : string -> Qc -> string }.

(* ---------------- dictionaries ---------------- *)

(* The keys of a dictionary: datetimes (with their timezone), numbers, strings and anything else. *)
Inductive ckey := CKDate (tz : string) (t : Qc) | CKNum (q : Qc) | CKText (s : string) | CKOther.

(* 1533-1548: the timezone and the instant of an item.  Without a datetime the timezone is the default one, UTC. *)
Definition key_time (w : dates) (k : ckey) : result (string * Qc) :=
  match k with
  | CKDate tz t => Ok (tz, t)
  | CKNum q => Ok ("UTC"%string, q)
  | CKText s => match w_float w s with
                | Some q => Ok ("UTC"%string, q)
                | None => do t <- w_read w s; Ok ("UTC"%string, t)
                end
  | CKOther => Err ValueError
  end.

(* 1549-1551.  The values are those of Save.v; only numbers are modelled as data: NotANumber stands for any other. *)
Definition number_of (v : pv) : result Qc := match v with VNum q => Ok q | _ => Err NotANumber end.
Definition entry_of_pair (kv : key * pv) : result (string * Qc) :=
  do q <- number_of (snd kv); match fst kv with KS s => Ok (s, q) | KI _ => Err NotANumber end.
Definition value_data (v : pv) : result data :=
  match v with
  | VList l => do qs <- mapM number_of l; Ok (DList qs)
  | VDict d => do qs <- mapM entry_of_pair d; Ok (DDict qs)
  | v => do q <- number_of v; Ok (DDict [("value"%string, q)])
  end.

(* 1553-1563: DataTimeSlot(.., unit=slot_unit, ..) or DataTimePoint(..) *)
Definition make_item (w : dates) (unit : option tunit) (tz : string) (t : Qc) (d : data) : item :=
  match unit with
  | None => mkItem CDataTimePoint t t (UPhys q0) tz (Some d) [] None
  | Some u => mkItem CDataTimeSlot t (w_end w tz u t) u tz (Some d) [] None
  end.

(* The argument slot_unit: nothing, a unit or a string. *)
Inductive unit_arg := NoUnit | IsUnit (u : tunit) | NamedUnit (s : string).
(* 1528-1529; the empty string is false: no slots *)
Definition unit_given (ut : unit_text) (a : unit_arg) : result (option tunit) :=
  match a with
  | NoUnit => Ok None
  | IsUnit u => Ok (Some u)
  | NamedUnit s => if String.eqb s "" then Ok None else do u <- ut_parse ut s; Ok (Some u)
  end.

(* 1524-1565 *)
Definition add_entry (e : env) (w : dates) (unit : option tunit) (s : series) (kv : ckey * pv) : result series :=
  do k <- key_time w (fst kv);
  do d <- value_data (snd kv);
  let '(s', r) := ts_append e s (make_item w unit (fst k) (snd k) d) in do _ <- r; Ok s'.
Definition from_dict (e : env) (w : dates) (ut : unit_text) (m : list (ckey * pv)) (a : unit_arg) : result series :=
  do unit <- unit_given ut a;
  foldM (add_entry e w unit) m (empty_series None).

(* ---------------- JSON ---------------- *)

(* 1582-1587.  timeseries_as_dict[text] = data: a repeated text keeps its place and takes the last data *)
Definition data_value (d : data) : pv :=
  match d with DList l => VList (map VNum l) | DDict d => VDict (map (fun kv => (KS (fst kv), VNum (snd kv))) d) end.
Definition to_json (w : dates) (s : series) : result json :=
  do m <- foldM (fun m x => do d <- item_data x; Ok (dset (w_text w (i_tz x) (w_epoch w (i_t x))) (data_value d) m)) (s_items s) [];
  dumps (VDict (map (fun kv => (KS (fst kv), snd kv)) m)).
(* 1575-1579.  Documents which are not objects are not modelled (lists can be iterated, too). *)
Definition json_key (k : key) : ckey := match k with KS s => CKText s | KI z => CKNum (qz z) end.
Definition from_json (e : env) (w : dates) (ut : unit_text) (j : json) (a : unit_arg) : result series :=
  match loads j with
  | VDict d => from_dict e w ut (map (fun kv => (json_key (fst kv), snd kv)) d) a
  | _ => Err TypeError
  end.

(* ---------------- data frames ---------------- *)

(* What is in the index: datetimes with or without a timezone (then the instant is the one of the same date and time in UTC), or not. *)
Inductive stamp := Aware (tz : string) (t : Qc) | Naive (t : Qc) | NoDate.
(* fr_freq: df.index.inferred_freq; a cell is None if it is missing (not modelled as data: NotANumber) *)
Record frame := mkFrame { fr_freq : result (option string); fr_columns : list string; fr_rows : list (stamp * list (option Qc)) }.

(* s.replace(old, new) *)
Fixpoint replace_from (old new : string) (skip : nat) (s : string) : string :=
  match s with
  | EmptyString => EmptyString
  | String a r =>
    match skip with
    | S k => replace_from old new k r
    | O => if prefix old s then (new ++ replace_from old new (String.length old - 1) r)%string
           else String a (replace_from old new 0 r)
    end
  end.
Definition str_replace (old new s : string) : string := replace_from old new 0 s.
(* 1629-1641 *)
Definition unit_letters (s : string) : string :=
  let s := str_replace "A" "Y" s in
  let s := str_replace "Y" "Y" s in
  let s := str_replace "AS" "Y" s in
  let s := str_replace "YS" "Y" s in
  let s := str_replace "MS" "M" s in
  let s := str_replace "M" "M" s in
  let s := str_replace "D" "D" s in
  let s := str_replace "H" "h" s in
  let s := str_replace "T" "m" s in
  let s := str_replace "min" "m" s in
  str_replace "S" "s" s.
(* 1643-1646 *)
Definition unit_name (s : string) : string :=
  let t := unit_letters s in if Nat.eqb (String.length t) 1 then ("1" ++ t)%string else t.
(* 1648 *)
Definition digit (a : ascii) : bool := let n := nat_of_ascii a in Nat.leb 48 n && Nat.leb n 57.
Fixpoint drop_digits (s : string) : string :=
  match s with EmptyString => EmptyString | String a r => if digit a then drop_digits r else String a (drop_digits r) end.
(* 1650 *)
Definition is_calendar (f : string) : bool := str_mem (drop_digits (unit_name f)) ["Y"; "M"; "D"]%string.

(* The argument item_type, and what is made. *)
Inductive wanted_items := AutoItems | WantPoints | WantSlots.
(* 1616-1660: whether slots are made; the frequency None (or empty) is false *)
Definition make_slots (f : option string) (a : wanted_items) : result bool :=
  match f with
  | None | Some EmptyString => Ok (match a with WantSlots => true | _ => false end)
  | Some f =>
    if is_calendar f then match a with WantPoints => Err ValueError | _ => Ok true end
    else Ok (match a with WantSlots => true | _ => false end)
  end.
(* 1663-1666: unit_str is not bound without a frequency *)
Definition frame_unit (ut : unit_text) (f : option string) : result tunit :=
  match f with None | Some EmptyString => Err UnboundLocalError | Some f => ut_parse ut (unit_name f) end.

(* 1677-1694, 1709-1726: the item of a row *)
Definition stamp_time (x : stamp) : result (string * Qc) :=
  match x with Aware tz t => Ok (tz, t) | Naive t => Ok ("UTC"%string, t) | NoDate => Err TypeError end.
Definition cell (c : option Qc) : result Qc := match c with Some q => Ok q | None => Err NotANumber end.
Definition row_data (labels : list string) (cells : list (option Qc)) : result data :=
  do qs <- mapM cell cells; Ok (DDict (dict_of (combine labels qs))).
Definition row_item (w : dates) (unit : option tunit) (labels : list string) (r : stamp * list (option Qc)) : result item :=
  do k <- stamp_time (fst r); do d <- row_data labels (snd r); Ok (make_item w unit (fst k) (snd k) d).
(* 1611-1726 *)
Definition from_df (e : env) (w : dates) (ut : unit_text) (df : frame) (a : wanted_items) : result series :=
  do f <- fr_freq df;
  do slots <- make_slots f a;
  do unit <- (if slots : bool then do u <- frame_unit ut f; Ok (Some u) else Ok None);
  do l <- mapM (row_item w unit (fr_columns df)) (fr_rows df);
  ts_new e None l.

(* 1728-1751.  infer: what Pandas infers for the frequency of an index.  A column with the name of the index or of another column is not modelled. *)
Definition has_loss (x : item) : bool := match data_loss x with Some _ => true | None => false end.
Definition to_df (w : dates) (infer : list stamp -> result (option string)) (s : series) : result frame :=
  do labels <- labels_of s;
  let dump := existsb has_loss (s_items s) in
  do rows <- mapM (fun x => do vs <- mapM (data_at x) labels;
                            Ok (Aware (i_tz x) (w_epoch w (i_t x)), map Some vs ++ (if dump then [data_loss x] else []))) (s_items s);
  Ok (mkFrame (infer (map fst rows)) (labels ++ (if dump then ["data_loss"%string] else [])) rows).
