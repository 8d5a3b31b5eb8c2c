(* SpecCsv.v -- SPECIFICATION vocabulary for the CSV storage (C61-C63). *)
From Coq Require Export Permutation.
From Verif Require Export SpecOps SpecAccess Csv.

(* ---- what is assumed of the text of the numbers ---- *)
Definition number_char (c : ascii) : Prop := In c (chars "0123456789.-+e").
(* Numbers are written with digits, dots, signs and exponents, and read back as they were; the words "None" and "epoch" are
   neither numbers nor dates. *)
Definition exact_text (nt : num_text) : Prop :=
  (forall q, nt_float nt (nt_str nt q) = Some q) /\
  (forall q, nt_str nt q <> EmptyString /\ Forall number_char (chars (nt_str nt q))) /\
  nt_float nt "None" = None /\ nt_float nt "epoch" = None /\ (forall tz, nt_dt nt tz "epoch" = None).

(* ---- which labels can be written ---- *)
(* Printable characters without commas, no quotes or spaces at the ends, no two spaces in a row, and not one of the words
   for missing data (with any case and dots). *)
Definition label_char (c : ascii) : Prop := 32 <= nat_of_ascii c <= 126 /\ c <> ","%char.
Definition good_end (c : ascii) : Prop := c <> " "%char /\ c <> "'"%char /\ c <> """"%char.
Fixpoint single_spaces (l : list ascii) : Prop :=
  match l with
  | a :: (b :: _) as r => ~ (a = " "%char /\ b = " "%char) /\ single_spaces r
  | _ => True
  end.
Definition plain_label (s : string) : Prop :=
  s <> EmptyString /\ Forall label_char (chars s) /\ single_spaces (chars s) /\
  (forall c r, chars s = c :: r -> good_end c) /\ (forall c r, chars s = r ++ [c] -> good_end c) /\
  ~ In (text (drop_dots (lower (chars s)))) ["na"; "nan"; "null"; "nd"; "undef"]%string.
(* The labels of the data are not "timestamp" and do not start with two underscores; all the items have the same indexes. *)
Definition writable (l : list item) : Prop :=
  (forall x lb, In x l -> has_label x lb -> plain_label lb /\ lb <> "timestamp"%string /\ (forall r, lb <> ("__" ++ r)%string)) /\
  (forall x ix, In x l -> In ix (dkeys (i_idx x)) -> plain_label ("__" ++ ix)) /\
  (forall x, In x l -> NoDup (dkeys (i_idx x))) /\
  (forall x y ix, In x l -> In y l -> In ix (dkeys (i_idx x)) -> In ix (dkeys (i_idx y))).

Definition no_newline (s : string) : Prop := ~ In newline (chars s).

(* A storage which detects the columns and the format, as by default (or which has already detected those of a file written
   by put); timezone, type of the series, sorting and handling of the errors are free. *)
Definition default_columns (st : storage) : Prop :=
  (st_cols st = TsAuto \/ st_cols st = TsCol (ColL "epoch")) /\ (st_format st = FAuto \/ st_format st = FEpoch) /\
  st_labels st = WAll /\ st_dtype st = TAuto /\ st_sep st = ","%char /\ st_comments st = ["#"; ";"]%char.
(* The whole file is asked for. *)
Definition whole (o : options) : Prop := o_limit o = 0 /\ o_filter o = [].

(* The file system has a place for the file. *)
Definition place_for (f : cfs) (p : list string) : Prop := f (removelast p) = Some CDir /\ f p <> Some CDir.

(* The same class, times, unit (for slots), values under the same labels, and indexes (whatever the order of labels and
   indexes). *)
Definition same_content (x y : item) : Prop :=
  i_cls y = i_cls x /\ i_t y = i_t x /\ (is_slot x = true -> i_end y = i_end x /\ i_unit y = i_unit x) /\
  (forall lb v, has_value y lb v <-> has_value x lb v) /\
  (forall ix, dget ix (i_idx y) = dget ix (i_idx x)).

(* ---- which type of series is found in a file ---- *)
(* The distances between the neighbours among the first eleven items: those on which the sampling interval is detected. *)
Definition first_distances (l : list item) (P : Qc -> Prop) : Prop := consecutive (fun a b => P (Qcminus (i_t b) (i_t a))) (firstn 11 l).
Definition hours (n : Z) : Qc := qz (3600 * n).
Definition days (n : Z) : Qc := qz (86400 * n).
Definition day_long (d : Qc) : Prop := d = hours 23 \/ d = hours 24 \/ d = hours 25.
Definition month_long (d : Qc) : Prop := d = days 28 \/ d = days 30 \/ d = days 31.
(* 886400 (sic) is what the code has for the leap years *)
Definition year_long (d : Qc) : Prop := d = days 365 \/ d = qz (886400 * 366).
Definition calendar_long (d : Qc) : Prop := day_long d \/ month_long d \/ year_long d.
Definition usual_length (d : Qc) : Prop := In d [qz 3600; qz 1800; qz 900; qz 600; qz 300; qz 60].
(* The type asked for: by the call, or else by the storage. *)
Definition asked (o : options) (st : storage) : stype := if o_points o then StPoints else if o_slots o then StSlots else st_stype st.
(* The unit of some slots is found from their distances: days, months and years as calendar units, the other lengths only
   if slots are asked for, as seconds. *)
Definition unit_found (k : cenv) (o : options) (st : storage) (l : list item) (u : tunit) : Prop :=
  (u = UCal "1D" /\ first_distances l day_long) \/
  (u = UCal "1M" /\ first_distances l month_long) \/
  (u = UCal "1Y" /\ first_distances l (fun d => d = days 365)) \/
  (asked o st = StSlots /\ exists q, u = UPhys q /\ ~ calendar_long q /\ first_distances l (fun d => d = q) /\ (usual_length q \/ ce_secs k q = Ok (UPhys q))).
(* Slots are read, of this unit: found from the distances, or given. *)
Definition slots_read (k : cenv) (o : options) (st : storage) (l : list item) (u : tunit) : Prop :=
  (asked o st = StAuto \/ asked o st = StSlots) /\
  ((unit_found k o st l u /\ (o_unit o = None \/ o_unit o = Some u)) \/
   (asked o st = StSlots /\ o_unit o = Some u /\ forall d, exists u', ce_secs k d = Ok u')).
(* Points are read. *)
Definition points_read (o : options) (st : storage) (l : list item) : Prop :=
  asked o st = StPoints \/ (asked o st = StAuto /\ first_distances l (fun d => ~ calendar_long d)).

(* ---- gaps ---- *)
(* n units after t *)
Fixpoint steps (c : cal) (u : tunit) (n : nat) (t : Qc) : Qc := match n with 0 => t | S m => unit_shift c u (steps c u m t) 1 end.
(* Between each row and the next there are zero or more slots missing (at most `most`); a gap is not so short, with respect to the
   epoch, to be within the tolerance for two slots in succession. *)
Definition rows_on_grid (c : cal) (u : tunit) (most : nat) (l : list item) : Prop :=
  consecutive (fun a b => exists n, n <= most /\ i_t b = steps c u (S n) (i_t a) /\ (n = 0 \/ ~ within_tolerance (unit_shift c u (i_t a) 1) (i_t b))) l.
(* The j-th of the n slots missing between a and b: its values are on the line between theirs, and it has full data loss. *)
Definition fills (c : cal) (u : tunit) (a b : item) (n j : nat) (y : item) : Prop :=
  i_t b = steps c u (S n) (i_t a) /\ 1 <= j <= n /\ i_t y = steps c u j (i_t a) /\ data_loss y = Some q1 /\
  forall lb v, has_value y lb v <-> exists va vb, has_value a lb va /\ has_value b lb vb /\ v = Qcplus va (Qcmult (Qcminus vb va) (Qcdiv (qn j) (qn (S n)))).

(* ---- limits ---- *)
Definition with_limit (o : options) (n : nat) : options := mkOptions n (o_filter o) (o_tz o) (o_points o) (o_slots o) (o_unit o).
(* A file with these lines. *)
Definition file_of (lines : list string) : string := join "" (map (fun s => s ++ end_line)%string lines).
(* An empty line, a comment, or a line without the separator. *)
Definition ignored (st : storage) (line : string) : Prop :=
  line = EmptyString \/ (exists c r, line = String c r /\ In c (st_comments st)) \/ ~ In (st_sep st) (chars line).

(* ---- tables: files with a header and rows ---- *)
(* What is in a cell: its text, without quotes and extra spaces, unless it is a placeholder for missing data; its number,
   where the decimals can have a comma. *)
Definition cell_text (fields : list string) (j : nat) (s : string) : Prop := exists a, nth_error fields j = Some a /\ sanitize a = Some s.
Definition cell_number (nt : num_text) (fields : list string) (j : nat) (q : Qc) : Prop := exists s, cell_text fields j s /\ nt_float nt (comma_to_dot s) = Some q.
(* A line can be split again in these fields, and it is not a comment. *)
Definition splits (st : storage) (fields : list string) : Prop :=
  2 <= length fields /\ (forall f, In f fields -> ~ In (st_sep st) (chars f) /\ no_newline f) /\ ~ ignored st (join (String (st_sep st) EmptyString) fields).
Definition line_text (st : storage) (fields : list string) : string := join (String (st_sep st) EmptyString) fields.
(* The header has the labels: all different, and one of them is neither a number nor a date. *)
Definition header_says (nt : num_text) (st : storage) (o : options) (header names : list string) : Prop :=
  splits st header /\ Forall2 (fun h l => sanitize h = Some l /\ l <> EmptyString) header names /\ NoDup names /\
  exists l, In l names /\ nt_float nt l = None /\ nt_dt nt (csv_tz st o) l = None.
(* The columns of the timestamps: those asked for, or "timestamp", or "epoch", or the first one. *)
Definition column_is (names : list string) (c : col) (j : nat) : Prop :=
  j < length names /\ match c with ColI i => j = i | ColL l => nth_error names j = Some l end.
Definition time_in (st : storage) (names : list string) (js : list nat) : Prop :=
  NoDup js /\
  match st_cols st with
  | TsAuto => exists p, js = [p] /\ (column_is names (ColL "timestamp") p \/ (~ In "timestamp"%string names /\ column_is names (ColL "epoch") p) \/
                                     (~ In "timestamp"%string names /\ ~ In "epoch"%string names /\ p = 0))
  | TsCol c => exists p, js = [p] /\ column_is names c p
  | TsParts (Some (c, _)) (Some (d, _)) => exists p q, js = [p; q] /\ column_is names c p /\ column_is names d q
  | TsParts (Some (c, _)) None | TsParts None (Some (c, _)) => exists p, js = [p] /\ column_is names c p
  | TsParts None None => False
  end.
(* How the timestamps are read: as the storage says or, if it does not say, as numbers or as dates, which are not numbers. *)
Definition time_read (nt : num_text) (tz : string) (st : storage) (f : tformat) (s : string) (t : Qc) : Prop :=
  (st_format st = f \/ st_format st = FAuto) /\
  match f with
  | FAuto => False
  | FEpoch => nt_float nt s = Some t
  | FIso => nt_dt nt tz s = Some t /\ (st_format st = FAuto -> nt_float nt s = None)
  | FCustom g => st_format st = f /\ nt_strp nt g tz s = Some t
  end.
(* The time of a row *)
Definition row_time (nt : num_text) (tz : string) (st : storage) (f : tformat) (js : list nat) (fields : list string) (t : Qc) : Prop :=
  match st_cols st, js with
  | TsParts (Some (_, tf)) (Some (_, df)), [p; q] => exists a b, cell_text fields p a /\ cell_text fields q b /\ nt_strp nt (df ++ tab ++ tf) tz (b ++ tab ++ a) = Some t
  | TsParts (Some (_, g)) None, [p] | TsParts None (Some (_, g)), [p] => exists a, cell_text fields p a /\ nt_strp nt g tz a = Some t
  | TsParts _ _, _ => False
  | _, [p] => exists a, cell_text fields p a /\ time_read nt tz st f a t
  | _, _ => False
  end.
(* The columns which are read: all those without timestamps, or the labels asked for by the call, or else by the storage. *)
Definition chosen_columns (st : storage) (o : options) : wanted := match o_filter o with [] => st_labels st | f => WCols f end.
Definition read_column (st : storage) (o : options) (names : list string) (js : list nat) (j : nat) : Prop :=
  match chosen_columns st o with
  | WAll => j < length names /\ ~ In j js
  | WCols l => exists lb, In (ColL lb) l /\ nth_error names j = Some lb
  end.
(* These can be found, and are some. *)
Definition columns_found (st : storage) (o : options) (names : list string) (js : list nat) : Prop :=
  (exists j, read_column st o names js j) /\
  match chosen_columns st o with WAll => True | WCols l => forall c, In c l -> exists lb, c = ColL lb /\ In lb names end.
Definition index_label (l : string) : Prop := exists r, l = ("__" ++ r)%string.
(* A row with the time and all the numbers; the indexes can have anything else, for None *)
Definition good_row (nt : num_text) (st : storage) (o : options) (f : tformat) (names : list string) (js : list nat) (fields : list string) (t : Qc) : Prop :=
  row_time nt (csv_tz st o) st f js fields t /\
  forall j l, read_column st o names js j -> nth_error names j = Some l -> j < length fields /\ (index_label l \/ exists q, cell_number nt fields j q).
(* A row with all the cells of the timestamp where there is no timestamp, or with the timestamp but without some number *)
Definition bad_row (nt : num_text) (st : storage) (o : options) (f : tformat) (names : list string) (js : list nat) (fields : list string) : Prop :=
  (exists p a, js = [p] /\ nth_error fields p = Some a /\ match st_cols st with TsParts _ _ => False | _ => True end /\
     forall s, sanitize a = Some s -> nt_float nt s = None /\ nt_dt nt (csv_tz st o) s = None /\ forall g, nt_strp nt g (csv_tz st o) s = None) \/
  (exists t, row_time nt (csv_tz st o) st f js fields t) /\
  exists j l, read_column st o names js j /\ nth_error names j = Some l /\ (length fields <= j \/ (~ index_label l /\ forall q, ~ cell_number nt fields j q)).
(* The point of a row: its time, the numbers of the columns under their labels, the indexes. *)
Definition point_of_row (nt : num_text) (st : storage) (o : options) (names : list string) (js : list nat) (fields : list string) (t : Qc) (y : item) : Prop :=
  i_cls y = CDataTimePoint /\ i_t y = t /\ i_tz y = csv_tz st o /\
  (forall l v, has_value y l v <-> exists j, read_column st o names js j /\ nth_error names j = Some l /\ ~ index_label l /\ cell_number nt fields j v) /\
  (forall i v, dget i (i_idx y) = Some v <-> exists j, read_column st o names js j /\ nth_error names j = Some ("__" ++ i)%string /\
     match v with Some q => cell_number nt fields j q | None => forall q, ~ cell_number nt fields j q end).
(* The times of the rows do not make slots of them. *)
Definition rows_as_points (o : options) (st : storage) (ts : list Qc) : Prop :=
  asked o st = StPoints \/
  (asked o st = StAuto /\ forall i a b, nth_error (firstn 11 ts) i = Some a -> nth_error (firstn 11 ts) (S i) = Some b -> ~ calendar_long (Qcminus b a)).
(* The rows which are not bad, with their times: in the order of the file or, if they are sorted, in any order. *)
Definition in_order (st : storage) (rows : list (list string * option Qc)) (xs : list (Qc * list string)) : Prop :=
  let good := flat_map (fun x : list string * option Qc => match snd x with Some t => [(t, fst x)] | None => [] end) rows in
  if st_sort st then Permutation good xs else good = xs.

(* ---- data as lists: tables without a header, columns asked for by position ---- *)
(* A line which is not taken for a header: each cell has a number or a date. *)
Definition only_values (nt : num_text) (st : storage) (o : options) (fields : list string) : Prop :=
  forall a, In a fields -> exists s, sanitize a = Some s /\ s <> EmptyString /\ (nt_float nt s <> None \/ nt_dt nt (csv_tz st o) s <> None).
(* Without labels, the columns of the timestamps are asked for by position, or else the time is in the first column. *)
Definition time_at (st : storage) (width : nat) (js : list nat) : Prop :=
  NoDup js /\ (forall j, In j js -> j < width) /\
  match st_cols st with
  | TsAuto => js = [0]
  | TsCol (ColI i) => js = [i]
  | TsParts (Some (ColI i, _)) (Some (ColI k, _)) => js = [i; k]
  | TsParts (Some (ColI i, _)) None | TsParts None (Some (ColI i, _)) => js = [i]
  | _ => False
  end.
(* How the file starts: with a header with these labels, or with a row of values. *)
Definition starts (nt : num_text) (st : storage) (o : options) (header : option (list string * list string)) (rows : list (list string)) (width : nat) (js : list nat) : Prop :=
  match header with
  | Some (h, names) => header_says nt st o h names /\ width = length names /\ time_in st names js
  | None => exists first rest, rows = first :: rest /\ only_values nt st o first /\ width = length first /\ time_at st width js
  end.
(* The columns of the data, in their order: all those without timestamps as they are in the file, or those asked for, by
   position or by label, as they were asked for. *)
Definition listed_columns (st : storage) (o : options) (header : option (list string * list string)) (width : nat) (js di : list nat) : Prop :=
  di <> [] /\ (forall j, In j di -> j < width) /\
  match chosen_columns st o with
  | WAll => di = filter (fun j => negb (existsb (Nat.eqb j) js)) (seq 0 width)
  | WCols l => l = map ColI di \/ exists h names ls, header = Some (h, names) /\ l = map ColL ls /\ Forall2 (fun lb j => nth_error names j = Some lb) ls di
  end.
(* Lists are asked for, or positions, or there is no header *)
Definition as_lists (st : storage) (o : options) (header : option (list string * list string)) : Prop :=
  st_dtype st = TList \/ (exists l, chosen_columns st o = WCols (map ColI l)) \/ (st_dtype st = TAuto /\ header = None).
Definition good_list (nt : num_text) (st : storage) (o : options) (f : tformat) (js di : list nat) (fields : list string) (t : Qc) : Prop :=
  row_time nt (csv_tz st o) st f js fields t /\ forall j, In j di -> exists q, cell_number nt fields j q.
Definition bad_list (nt : num_text) (st : storage) (o : options) (f : tformat) (js di : list nat) (fields : list string) : Prop :=
  (exists p a, js = [p] /\ nth_error fields p = Some a /\ match st_cols st with TsParts _ _ => False | _ => True end /\
     forall s, sanitize a = Some s -> nt_float nt s = None /\ nt_dt nt (csv_tz st o) s = None /\ forall g, nt_strp nt g (csv_tz st o) s = None) \/
  (exists t, row_time nt (csv_tz st o) st f js fields t) /\ exists j, In j di /\ forall q, ~ cell_number nt fields j q.
(* The point of a row: its time and the list of the numbers of the columns *)
Definition list_of_row (nt : num_text) (st : storage) (o : options) (di : list nat) (fields : list string) (t : Qc) (y : item) : Prop :=
  i_cls y = CDataTimePoint /\ i_t y = t /\ i_tz y = csv_tz st o /\ i_idx y = [] /\
  exists vs, i_data y = Some (DList vs) /\ Forall2 (cell_number nt fields) di vs.
Definition header_line (st : storage) (header : option (list string * list string)) : list string := match header with Some (h, _) => [line_text st h] | None => [] end.
