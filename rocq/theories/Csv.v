(* Csv.v -- MODEL of the CSV file storage (storages.py 43-788; to_csv and from_csv, datastructures.py 1591-1609,
   only build the storage and call put and get).

   Files are ASCII text, with lines ended by a newline (the detection of the encoding, 208-209, is not modelled). Numbers
   are written and read by the two functions of num_text, dates by a third one: nothing is assumed about them here. The
   arguments of the storage are supposed to have passed the checks of the constructor (93-124); data_type=float is not
   modelled, nor are the id, start and end arguments, which always raise (180-184, 745-746),
   infinite numbers, and list data without elements. *)
From Verif Require Export Intervals Models Transform.

(* ---------------- text ---------------- *)

(* What Python and propertime do with the text of numbers and dates: str(x); float(s), None if it raises; the epoch of
   dt_from_str(s), in a timezone if the date has none, None if it raises; the same for strptime with a format. *)
Record num_text := mkNumText {
  nt_str : Qc -> string;
  nt_float : string -> option Qc;
  nt_dt : string -> string -> option Qc;
  nt_strp : string -> string -> string -> option Qc }.

(* What is a white space for re (\s) and for strip() *)
Definition is_space (c : ascii) : bool :=
  let n := nat_of_ascii c in (Nat.leb 9 n && Nat.leb n 13) || (Nat.leb 28 n && Nat.leb n 32).
Definition is_quote (c : ascii) : bool := Ascii.eqb c "'" || Ascii.eqb c """".
Fixpoint chars (s : string) : list ascii := match s with EmptyString => [] | String c r => c :: chars r end.
Fixpoint text (l : list ascii) : string := match l with [] => EmptyString | c :: r => String c (text r) end.

(* re.sub('\s+', ' ', s) *)
Fixpoint collapse (after_space : bool) (l : list ascii) : list ascii :=
  match l with
  | [] => []
  | c :: r => if is_space c then (if after_space then collapse true r else " "%char :: collapse true r) else c :: collapse false r
  end.
Fixpoint lstrip (l : list ascii) : list ascii :=
  match l with c :: r => if is_space c then lstrip r else l | [] => [] end.
Definition strip (l : list ascii) : list ascii := rev (lstrip (rev (lstrip l))).
Definition unquote_left (l : list ascii) : list ascii := match l with c :: r => if is_quote c then r else l | [] => [] end.
Definition unquote_right (l : list ascii) : list ascii := rev (unquote_left (rev l)).
(* s.lower() and s.replace('.', '') *)
Definition lower_char (c : ascii) : ascii :=
  let n := nat_of_ascii c in if Nat.leb 65 n && Nat.leb n 90 then ascii_of_nat (n + 32) else c.
Definition lower (l : list ascii) : list ascii := map lower_char l.
Definition drop_dots (l : list ascii) : list ascii := filter (fun c => negb (Ascii.eqb c ".")) l.
(* storages.py 20 *)
Definition placeholders : list string := ["na"; "nan"; "null"; "nd"; "undef"]%string.

(* utilities.py 916-928: _sanitize_string; None for a placeholder *)
Definition sanitize (s : string) : option string :=
  let l := strip (unquote_right (unquote_left (strip (collapse false (chars s))))) in
  if str_mem (text (drop_dots (lower l))) placeholders then None else Some (text l).
(* if _sanitize_string(s): *)
Definition content (s : string) : bool := match sanitize s with None => false | Some t => negb (String.eqb t "") end.

(* s.split(c) *)
Fixpoint split_chars (sep : ascii) (acc : list ascii) (l : list ascii) : list string :=
  match l with
  | [] => [text (rev acc)]
  | c :: r => if Ascii.eqb c sep then text (rev acc) :: split_chars sep [] r else split_chars sep (c :: acc) r
  end.
Definition split_on (sep : ascii) (s : string) : list string := split_chars sep [] (chars s).
(* c in s *)
Definition char_in (c : ascii) (s : string) : bool := existsb (Ascii.eqb c) (chars s).

Definition newline : ascii := "010"%char.
(* The lines of a file, without the newlines; the text after the last newline is a line if there is some. *)
Definition lines_of (s : string) : list string :=
  let l := split_on newline s in
  match rev l with
  | EmptyString :: r => rev r
  | _ => l
  end.

(* s.startswith('__') and s[2:] *)
Definition is_index_label (s : string) : bool := match s with String "_" (String "_" _) => true | _ => false end.
Definition index_name (s : string) : string := match s with String _ (String _ r) => r | _ => EmptyString end.

(* s.replace(',', '.') *)
Definition comma_to_dot (s : string) : string := text (map (fun c => if Ascii.eqb c "," then "."%char else c) (chars s)).

(* utilities.py 940-953: _to_float; Ok None for an index which is not a number, Err for FloatConversionError *)
Definition to_float (nt : num_text) (s : string) (label : option string) : result (option Qc) :=
  match match sanitize s with
        | None => None
        | Some t => nt_float nt (comma_to_dot t)
        end with
  | Some q => Ok (Some q)
  | None => match label with
            | Some l => if is_index_label l then Ok None else Err GenericException
            | None => Err GenericException
            end
  end.

(* ---------------- the storage ---------------- *)

(* A column, by position or by label *)
Inductive col := ColI (i : nat) | ColL (l : string).
(* 97-121: the timestamp column ('auto' or given), or the time and date columns with their formats *)
Inductive tcols := TsAuto | TsCol (c : col) | TsParts (time date : option (col * string)).
Inductive tformat := FAuto | FEpoch | FIso | FCustom (f : string).
Inductive wanted := WAll | WCols (l : list col).
Inductive dtype := TAuto | TList | TDict.
Inductive stype := StAuto | StPoints | StSlots | StUnknown.

(* storages.py 87-161 *)
Record storage := mkStorage {
  st_cols : tcols; st_format : tformat; st_tz : string; st_labels : wanted; st_dtype : dtype; st_stype : stype;
  st_sort : bool; st_sep : ascii; st_comments : list ascii; st_skip : bool }.
Definition set_cols st x := mkStorage x (st_format st) (st_tz st) (st_labels st) (st_dtype st) (st_stype st) (st_sort st) (st_sep st) (st_comments st) (st_skip st).
Definition set_format st x := mkStorage (st_cols st) x (st_tz st) (st_labels st) (st_dtype st) (st_stype st) (st_sort st) (st_sep st) (st_comments st) (st_skip st).
Definition set_dtype st x := mkStorage (st_cols st) (st_format st) (st_tz st) (st_labels st) x (st_stype st) (st_sort st) (st_sep st) (st_comments st) (st_skip st).
(* The default arguments *)
Definition csv_storage : storage := mkStorage TsAuto FAuto "UTC" WAll TAuto StAuto false "," ["#"; ";"]%char false.

(* storages.py 164-165: the arguments of get *)
Record options := mkOptions {
  o_limit : nat;             (* 0 and None are the same: 533 *)
  o_filter : list col;
  o_tz : option string;
  o_points : bool; o_slots : bool;
  o_unit : option tunit }.
Definition no_options : options := mkOptions 0 [] None false false None.
Definition csv_tz (st : storage) (o : options) : string := match o_tz o with Some z => z | None => st_tz st end.

(* ---------------- get: the rows (storages.py 186-534) ---------------- *)

(* The data of a row: a list, or a dictionary where the indexes can be None *)
Inductive raw := RList (l : list Qc) | RDict (d : dict (option Qc)).

(* The local variables of the loop. The storage is among them, because some of its attributes are set (292, 397, 403, 452). *)
Record rstate := mkRs {
  r_st : storage;
  r_ci : list nat;                    (* column_indexes; None and [] are the same: 250 *)
  r_labels : option (list string);    (* column_labels *)
  r_ts : option nat; r_time : option nat; r_date : option nat;   (* the time columns, once set *)
  r_di : option (list nat);           (* data_label_indexes *)
  r_names : bool;                     (* data_label_names is set and not empty *)
  r_dtype : option dtype;             (* data_type *)
  r_items : list (Qc * raw);          (* items *)
  r_count : nat }.                    (* line_number *)
Definition rs_st r x := mkRs x (r_ci r) (r_labels r) (r_ts r) (r_time r) (r_date r) (r_di r) (r_names r) (r_dtype r) (r_items r) (r_count r).
Definition rs_columns r ci ls := mkRs (r_st r) ci ls (r_ts r) (r_time r) (r_date r) (r_di r) (r_names r) (r_dtype r) (r_items r) (r_count r).
Definition rs_times r ts ti da := mkRs (r_st r) (r_ci r) (r_labels r) ts ti da (r_di r) (r_names r) (r_dtype r) (r_items r) (r_count r).
Definition rs_data r ci di nm := mkRs (r_st r) ci (r_labels r) (r_ts r) (r_time r) (r_date r) di nm (r_dtype r) (r_items r) (r_count r).
Definition rs_dtype r x := mkRs (r_st r) (r_ci r) (r_labels r) (r_ts r) (r_time r) (r_date r) (r_di r) (r_names r) x (r_items r) (r_count r).
Definition rs_item r x := mkRs (r_st r) (r_ci r) (r_labels r) (r_ts r) (r_time r) (r_date r) (r_di r) (r_names r) (r_dtype r) (r_items r ++ [x]) (S (r_count r)).
Definition rs_start (st : storage) : rstate := mkRs st [] None None None None None false None [] 0.

Definition sbind {S A B} (p : S * result A) (f : S -> A -> S * result B) : S * result B :=
  match snd p with Ok a => f (fst p) a | Err x => (fst p, Err x) end.

(* 252-261: some field is neither a number nor a date.  Simplified: the code calls dt_from_str without a time zone; here whether a text is a
   date may depend on the zone of the storage. *)
Definition not_converted (nt : num_text) (tz : string) (f : string) : bool :=
  match sanitize f with
  | None => true
  | Some t => match nt_float nt t, nt_dt nt tz t with None, None => true | _, _ => false end
  end.
(* 265, 272 *)
Definition with_content (fields : list string) : list nat :=
  filter (fun i => match nth_error fields i with Some f => content f | None => false end) (seq 0 (length fields)).
(* 266 *)
Definition labels_in (fields : list string) : list string :=
  flat_map (fun f => match sanitize f with Some t => if String.eqb t "" then [] else [t] | None => [] end) fields.

Fixpoint index_of (x : string) (l : list string) : option nat :=
  match l with
  | [] => None
  | y :: r => if String.eqb x y then Some 0 else match index_of x r with Some i => Some (S i) | None => None end
  end.
(* 301-312, 317-323, 328-334: a column requested by position or by label *)
Definition find_col (labels : option (list string)) (c : col) : result nat :=
  match c with
  | ColI i => Ok i
  | ColL l => match labels with
              | None => Err TypeError                     (* in None *)
              | Some ls => match index_of l ls with Some i => Ok i | None => Err GenericException end
              end
  end.
Definition find_part (labels : option (list string)) (known : option nat) (p : option (col * string)) : result (option nat) :=
  match known, p with
  | None, Some (c, _) => do i <- find_col labels c; Ok (Some i)
  | _, _ => Ok known
  end.

(* 283-339: the positions of the time columns; the label of the timestamp one is stored in the storage (292) *)
Definition time_columns (r : rstate) : rstate * result unit :=
  match st_cols (r_st r) with
  | TsAuto =>
    match r_ts r with
    | Some _ => (r, Ok tt)
    | None =>
      let by_label l k := match r_labels r with
                          | Some ls => match index_of l ls with
                                       | Some i => (rs_times (rs_st r (set_cols (r_st r) (TsCol (ColL l)))) (Some i) (r_time r) (r_date r), Ok tt)
                                       | None => k
                                       end
                          | None => k
                          end in
      by_label "timestamp"%string (by_label "epoch"%string (rs_times r (Some 0) (r_time r) (r_date r), Ok tt))
    end
  | TsCol c =>
    match r_ts r with
    | Some _ => (r, Ok tt)
    | None => match find_col (r_labels r) c with
              | Ok i => (rs_times r (Some i) (r_time r) (r_date r), Ok tt)
              | Err x => (r, Err x)
              end
    end
  | TsParts time date =>
    match find_part (r_labels r) (r_time r) time with
    | Err x => (r, Err x)
    | Ok ti => match find_part (r_labels r) (r_date r) date with
               | Err x => (rs_times r (r_ts r) ti (r_date r), Err x)
               | Ok da => let r' := rs_times r (r_ts r) ti da in
                          match ti, da with None, None => (r', Err ConsistencyException) | _, _ => (r', Ok tt) end
               end
    end
  end.

(* line_items[i] *)
Definition field (fields : list string) (i : nat) : result string :=
  match nth_error fields i with Some f => Ok f | None => Err IndexError end.
Definition part (fields : list string) (i : option nat) : result (option string) :=
  match i with None => Ok None | Some i => do f <- field fields i; Ok (sanitize f) end.
Definition tab : string := String "009"%char EmptyString.
(* 341-365: the timestamp as a string, None for a placeholder *)
Definition timestamp_text (r : rstate) (fields : list string) : result (option string) :=
  match r_ts r with
  | Some i => part fields (Some i)
  | None => do ti <- part fields (r_time r); do da <- part fields (r_date r);
            Ok (match ti, da with Some t, Some d => Some (d ++ tab ++ t)%string | t, None => t | None, d => d end)
  end.

(* 367-432: the epoch, None for any error; an automatic format is set in the storage by the first timestamp (397, 403) *)
Definition parse_time (nt : num_text) (tz : string) (st : storage) (s : option string) : storage * option Qc :=
  match s with
  | None => (st, None)
  | Some s =>
    match st_cols st with
    | TsParts (Some (_, tf)) (Some (_, df)) => (st, nt_strp nt (df ++ tab ++ tf)%string tz s)
    | TsParts None (Some (_, df)) => (st, nt_strp nt df tz s)
    | TsParts (Some (_, tf)) None => (st, nt_strp nt tf tz s)
    | _ => match st_format st with
           | FAuto => match nt_float nt s with
                      | Some t => (set_format st FEpoch, Some t)
                      | None => match nt_dt nt tz s with Some t => (set_format st FIso, Some t) | None => (st, None) end
                      end
           | FEpoch => (st, nt_float nt s)
           | FIso => (st, nt_dt nt tz s)
           | FCustom f => (st, nt_strp nt f tz s)
           end
    end
  end.

Fixpoint only_ints (l : list col) : option (list nat) :=
  match l with
  | [] => Some []
  | ColI i :: r => match only_ints r with Some is => Some (i :: is) | None => None end
  | ColL _ :: _ => None
  end.
(* list.remove(i) *)
Fixpoint nat_remove (i : nat) (l : list nat) : result (list nat) :=
  match l with
  | [] => Err ValueError
  | j :: r => if Nat.eqb i j then Ok r else do r' <- nat_remove i r; Ok (j :: r')
  end.
Definition remove_opt (i : option nat) (l : list nat) : result (list nat) := match i with Some i => nat_remove i l | None => Ok l end.
(* 459-463: data_label in column_labels and its position; an integer is never among the labels *)
Definition label_position (ls : list string) (c : col) : result nat :=
  match c with
  | ColI _ => Err GenericException
  | ColL l => match index_of l ls with Some i => Ok i | None => Err GenericException end
  end.

(* 438-485: the positions of the data columns, set with the first row of data.  With all the columns they are the very
   list of the columns, from which the time columns are removed. *)
Definition data_columns (o : options) (r : rstate) : rstate * result unit :=
  match r_di r with
  | Some _ => (r, Ok tt)
  | None =>
    let chosen := match o_filter o with [] => st_labels (r_st r) | f => WCols f end in
    let named r1 ci di :=
      match r_labels r1 with
      | Some (l0 :: ls) => match mapM (fun i => match nth_error (l0 :: ls) i with Some l => Ok l | None => Err IndexError end) di with
                           | Ok nm => (rs_data r1 ci (Some di) (match nm with [] => false | _ => true end), Ok tt)
                           | Err x => (rs_data r1 ci (Some di) false, Err x)
                           end
      | _ => (rs_data r1 ci (Some di) false, Ok tt)
      end in
    match chosen with
    | WAll => match (do a <- remove_opt (r_ts r) (r_ci r); do b <- remove_opt (r_time r) a; remove_opt (r_date r) b) with
              | Ok di => named r di di
              | Err x => (r, Err x)
              end
    | WCols l =>
      match only_ints l with
      | Some is => named (rs_st r (set_dtype (r_st r) TList)) (r_ci r) is
      | None => match r_labels r with
                | Some (l0 :: ls) => match mapM (label_position (l0 :: ls)) l with
                                     | Ok di => named r (r_ci r) di
                                     | Err x => (r, Err x)
                                     end
                | _ => (r, Err GenericException)
                end
      end
    end
  end.

(* 489-499: the type of the data, set with the first row *)
Definition set_data_type (r : rstate) : rstate :=
  match r_dtype r with
  | Some _ => r
  | None => rs_dtype r (Some (match st_dtype (r_st r) with TAuto => if r_names r then TDict else TList | t => t end))
  end.

(* 501-524: the data of a row; IndexError for a missing value and GenericException for one which is not a number are the
   two errors that can be skipped *)
Definition row_value (nt : num_text) (labels : option (list string)) (fields : list string) (i : nat) : result (string * option Qc) :=
  match labels with
  | None => Err TypeError                                  (* None[index] *)
  | Some ls => match nth_error ls i with
               | None => Err IndexError
               | Some l => do f <- field fields i; do v <- to_float nt f (Some l); Ok (l, v)
               end
  end.
Definition row_data (nt : num_text) (r : rstate) (fields : list string) : result raw :=
  let di := match r_di r with Some di => di | None => [] end in
  match r_dtype r with
  | Some TDict => do kvs <- mapM (row_value nt (r_labels r) fields) di; Ok (RDict (dict_of kvs))
  | _ => do vs <- mapM (fun i => do f <- field fields i; do v <- to_float nt f None; match v with Some q => Ok q | None => Err GenericException end) di;
         Ok (RList vs)
  end.

(* 279-534: a row of data; the boolean tells if to stop *)
Definition data_row (nt : num_text) (o : options) (r : rstate) (fields : list string) : rstate * result bool :=
  let tz := csv_tz (r_st r) o in
  sbind (time_columns r) (fun r1 _ =>
  match timestamp_text r1 fields with
  | Err x => (r1, Err x)
  | Ok s =>
    let '(st', t) := parse_time nt tz (r_st r1) s in
    let r2 := rs_st r1 st' in
    match t with
    | None => if st_skip st' then (r2, Ok false) else (r2, Err ValueError)
    | Some t =>
      sbind (data_columns o r2) (fun r3 _ =>
      let r4 := set_data_type r3 in
      match row_data nt r4 fields with
      | Ok d => let r5 := rs_item r4 (t, d) in
                (r5, Ok (negb (Nat.eqb (o_limit o) 0) && Nat.leb (o_limit o) (r_count r5)))
      | Err (IndexError | GenericException) => if st_skip (r_st r4) then (r4, Ok false) else (r4, Err GenericException)
      | Err x => (r4, Err x)
      end)
    end
  end).

(* 246-273: the first row, if it has something which is neither a number nor a date, has the labels *)
Definition row (nt : num_text) (o : options) (r : rstate) (line : string) : rstate * result bool :=
  let fields := split_on (st_sep (r_st r)) line in
  match r_ci r with
  | [] => if existsb (not_converted nt (csv_tz (r_st r) o)) fields
          then (rs_columns r (with_content fields) (Some (labels_in fields)), Ok false)
          else data_row nt o (rs_columns r (with_content fields) (r_labels r)) fields
  | _ :: _ => data_row nt o r fields
  end.

(* 236-244: comments, and lines without separators *)
Definition skipped (st : storage) (line : string) : bool :=
  match line with
  | EmptyString => true
  | String c _ => existsb (Ascii.eqb c) (st_comments st) || negb (char_in (st_sep st) line)
  end.
(* 222-534 *)
Fixpoint rows (nt : num_text) (o : options) (r : rstate) (ls : list string) : rstate * result unit :=
  match ls with
  | [] => (r, Ok tt)
  | l :: ls => if skipped (r_st r) l then rows nt o r ls
               else sbind (row nt o r l) (fun r' stop => if stop : bool then (r', Ok tt) else rows nt o r' ls)
  end.

(* ---------------- get: the series (storages.py 536-735) ---------------- *)

(* 541-543: sorted(items, key=itemgetter(0)), which is stable *)
Fixpoint insert_row (x : Qc * raw) (l : list (Qc * raw)) : list (Qc * raw) :=
  match l with
  | [] => [x]
  | y :: r => if qleb (fst x) (fst y) then x :: l else y :: insert_row x r
  end.
Definition sort_rows (l : list (Qc * raw)) : list (Qc * raw) := fold_right insert_row [] l.

(* What the code gets from propertime: the epoch of a datetime, TimeUnit('{}s'.format(x)). *)
Record cenv := mkCenv { ce_epoch : Qc -> Qc; ce_secs : Qc -> result tunit }.

(* 572-581: the sample on which the sampling interval is detected; the points refused by the series are left out *)
Definition time_point (t : Qc) : item := mkItem CTimePoint t t (UPhys q0) "UTC" None [] None.
Fixpoint sample (e : env) (s : series) (l : list (Qc * raw)) : series :=
  match l with
  | [] => s
  | x :: r => let s' := fst (ts_append e s (time_point (fst x))) in
              if Nat.ltb 10 (length (s_items s')) then s' else sample e s' r
  end.
(* utilities.py 86-121, without the confidence; None if there are no distances. The loop of detect_sampling_interval cannot
   start, as the sample has at most 11 points. *)
Definition detected (l : list item) : result (option Qc) :=
  match spread_loop 0 (length l) (count_all (diffs_of (map i_t l))) with
  | None => Err OutOfFuel
  | Some (Err x) => Err x
  | Some (Ok m) => Ok (fst (most_common m))
  end.
Definition one_of (q : Qc) (l : list Z) : bool := existsb (fun z => qeqb q (qz z)) l.
(* 584-628: None for points *)
Definition auto_unit (k : cenv) (slots : bool) (si : option Qc) : result (option tunit) :=
  match si with
  | None => if slots then Err ValueError else Ok None                 (* TimeUnit('Nones') *)
  | Some q =>
    if one_of q [86400*365; 886400*366]%Z then Ok (Some (UCal "1Y"))
    else if one_of q [86400*31; 86400*30; 86400*28]%Z then Ok (Some (UCal "1M"))
    else if one_of q [3600*24; 3600*23; 3600*25]%Z then Ok (Some (UCal "1D"))
    else if negb slots then Ok None
    else if one_of q [3600; 1800; 900; 600; 300; 60]%Z then Ok (Some (UPhys q))
    else do u <- ce_secs k q; Ok (Some u)
  end.

(* 669-677, 696-704: the columns of the indexes out of the data *)
Definition split_row (d : raw) : data * dict (option Qc) :=
  match d with
  | RList l => (DList l, [])
  | RDict d => (DDict (flat_map (fun kv => if is_index_label (fst kv) then [] else match snd kv with Some q => [(fst kv, q)] | None => [] end) d),
                flat_map (fun kv => if is_index_label (fst kv) then [(index_name (fst kv), snd kv)] else []) d)
  end.
Definition row_keys (d : raw) : list string := match d with RDict d => dkeys d | RList _ => [] end.

(* 664-690: points; with skip_errors those refused by the series are left out *)
Definition row_point (tz : string) (x : Qc * raw) : item :=
  mkItem CDataTimePoint (fst x) (fst x) (UPhys q0) tz (Some (fst (split_row (snd x)))) (snd (split_row (snd x))) None.
Fixpoint build_points (e : env) (tz : string) (skip : bool) (s : series) (l : list (Qc * raw)) : result series :=
  match l with
  | [] => Ok s
  | x :: r => let '(s', res) := ts_append e s (row_point tz x) in
              match res with
              | Ok _ => build_points e tz skip s' r
              | Err err => if skip then build_points e tz skip s' r else Err err
              end
  end.

(* DataTimeSlot(t=.., unit=.., data=.., tz=..) *)
Definition new_slot (c : cal) (u : tunit) (tz : string) (t : Qc) (d : data) (ix : dict (option Qc)) : item :=
  mkItem CDataTimeSlot t (unit_shift c u t 1) u tz (Some d) ix None.
(* 717-723, 731-733: the missing timestamps, up to the one of the row *)
Fixpoint missing_times (fuel : nat) (c : cal) (u : tunit) (prev stop : Qc) : result (list Qc) :=
  let t := unit_shift c u prev 1 in
  if qleb stop t then Ok []
  else match fuel with
       | 0 => Err OutOfFuel
       | S f => do l <- missing_times f c u t stop; Ok (t :: l)
       end.
(* 726: data[label] *)
Definition raw_item (d : data) (label : string) : result Qc := data_item d label.
(* 724-727: the j-th of n missing ones, for the keys of the last row; with lists the indices are not integers *)
Definition fill_data (keys : list string) (a b : data) (n j : nat) : result data :=
  match a with
  | DList _ => Err TypeError
  | DDict _ =>
    do kvs <- mapM (fun l => do y <- raw_item b l; do x <- raw_item a l;
                     do z <- qdiv (Qcminus y x) (Qcplus (qn n) q1); Ok (l, Qcplus (Qcmult z (Qcplus (qn j) q1)) x)) keys;
    Ok (DDict kvs)
  end.
(* series.append(..), which raises *)
Definition append_raise (e : env) (s : series) (x : item) : result series :=
  let '(s', res) := ts_append e s x in match res with Ok _ => Ok s' | Err err => Err err end.
(* 715-733: the row after a gap *)
Definition fill_gap (fuel : nat) (k : cenv) (e : env) (c : cal) (u : tunit) (tz : string) (keys : list string) (s : series)
    (prev x : Qc * raw) : result series :=
  let a := fst (split_row (snd prev)) in let b := fst (split_row (snd x)) in
  do ts <- missing_times fuel c u (ce_epoch k (fst prev)) (fst x);
  do s1 <- foldM (fun s jt => do d <- fill_data keys a b (length ts) (fst jt);
                   append_raise e s (new_slot c u tz (snd jt) d [("data_loss"%string, Some q1)])) (combine (seq 0 (length ts)) ts) s;
  append_raise e s1 (new_slot c u tz (fst x) b [("data_loss"%string, None)]).
(* 693-733: slots; a ValueError is supposed to be a gap. Until the last row its keys include the columns of the indexes,
   as they are removed one row at a time. *)
Fixpoint build_slots (fuel : nat) (k : cenv) (e : env) (c : cal) (u : tunit) (tz : string) (final prev : Qc * raw) (s : series) (l : list (Qc * raw)) : result series :=
  match l with
  | [] => Ok s
  | x :: r =>
    let '(s', res) := ts_append e s (new_slot c u tz (fst x) (fst (split_row (snd x))) (snd (split_row (snd x)))) in
    let keys := match r with
                | [] => match fst (split_row (snd x)) with DDict d => dkeys d | DList _ => [] end
                | _ => row_keys (snd final)
                end in
    do s2 <- match res with
             | Ok _ => Ok s'
             | Err ValueError => fill_gap fuel k e c u tz keys s' prev x
             | Err err => Err err
             end;
    build_slots fuel k e c u tz final x s2 r
  end.

(* 536-735 *)
Definition make_series (fuel : nat) (k : cenv) (e : env) (c : cal) (o : options) (st : storage) (l : list (Qc * raw)) : result series :=
  match l with
  | [] => Err GenericException                                    (* NoDataException *)
  | _ :: _ =>
    let l := if st_sort st then sort_rows l else l in
    let ty := if o_points o then StPoints else if o_slots o then StSlots else st_stype st in
    let tz := csv_tz st o in
    do u <- match ty with
            | StPoints => Ok None
            | StUnknown => Err ValueError
            | _ => do si <- detected (s_items (sample e (empty_series None) l));
                   auto_unit k (match ty with StSlots => true | _ => false end) si
            end;
    match u with
    | None => build_points e tz (st_skip st) (empty_series None) l     (* 655-658 only change the unit *)
    | Some u => let u := match o_unit o with Some u' => u' | None => u end in
                let final := last l (q0, RList []) in
                build_slots fuel k e c u tz final final (empty_series None) l
    end
  end.

(* storages.py 164-735 *)
Definition csv_get (fuel : nat) (nt : num_text) (k : cenv) (e : env) (c : cal) (o : options) (st : storage) (file : option string) : storage * result series :=
  if o_points o && o_slots o then (st, Err ValueError)
  else match file with
       | None => (st, Err GenericException)                             (* FileNotFoundError *)
       | Some txt => let '(r, res) := rows nt o (rs_start st) (lines_of txt) in
                     (r_st r, do _ <- res; make_series fuel k e c o (r_st r) (r_items r))
       end.

(* ---------------- put (storages.py 738-788) ---------------- *)

(* A file system: directories and text files. *)
Inductive cnode := CDir | CFile (text : string).
Definition cfs := list string -> option cnode.
Definition cfs_set (f : cfs) (p : list string) (n : cnode) : cfs := fun q => if strings_eqb q p then Some n else f q.
Definition file_at (f : cfs) (p : list string) : option string := match f p with Some (CFile t) => Some t | _ => None end.
(* How the disk behaves: it works, the file cannot be opened, only some characters are written. *)
Inductive cdisk := CFine | CNoOpen | CFull (n : nat).

Definition end_line : string := String newline EmptyString.
Fixpoint join (sep : string) (l : list string) : string :=
  match l with [] => EmptyString | [x] => x | x :: r => (x ++ sep ++ join sep r)%string end.
(* str(x) of the value of an index *)
Definition str_opt (nt : num_text) (v : option Qc) : string := match v with Some q => nt_str nt q | None => "None"%string end.

(* 779-788: a row; item.data[int(label)] if the data of the first item is a list *)
Definition put_row (nt : num_text) (as_list : bool) (labels indexes : list string) (x : item) : result string :=
  do d <- item_data x;
  do vs <- mapM (fun l => do v <- (if as_list then data_by_label d l else data_item d l); Ok (nt_str nt v)) labels;
  do is <- mapM (fun i => match dget i (i_idx x) with Some v => Ok (str_opt nt v) | None => Err KeyError end) indexes;
  Ok (match indexes with
      | [] => nt_str nt (i_t x) ++ "," ++ join "," vs ++ end_line
      | _ => nt_str nt (i_t x) ++ "," ++ join "," vs ++ "," ++ join "," is ++ end_line
      end)%string.
(* What is written, and how it ends: the rows before one which fails are written. *)
Fixpoint put_rows (nt : num_text) (as_list : bool) (labels indexes : list string) (l : list item) : string * result unit :=
  match l with
  | [] => (EmptyString, Ok tt)
  | x :: r => match put_row nt as_list labels indexes x with
              | Err err => (EmptyString, Err err)
              | Ok t => let '(t', res) := put_rows nt as_list labels indexes r in ((t ++ t')%string, res)
              end
  end.
(* 754-788: the content of the file; the comments (when, which series, its type, timezone and resolution: 757-765) are given *)
Definition put_text (nt : num_text) (comments : list string) (s : series) : string * result unit :=
  let head := join "" (map (fun t => "# " ++ t ++ end_line)%string comments) in
  match s_items s with
  | [] => (EmptyString, Err TypeError)                              (* issubclass(None, ..) *)
  | first :: _ =>
    match i_cls first with
    | CDataTimePoint | CDataTimeSlot =>
      match labels_of s with
      | Err err => (head, Err err)
      | Ok ls =>
        let ix := all_indexes (s_items s) in
        let names := match ix with
                     | [] => "epoch," ++ join "," ls ++ end_line
                     | _ => "epoch," ++ join "," ls ++ "," ++ join "," (map (fun i => "__" ++ i)%string ix) ++ end_line
                     end%string in
        let '(t, res) := put_rows nt (match i_data first with Some (DList _) => true | _ => false end) ls ix (s_items s) in
        ((head ++ names ++ t)%string, res)
      end
    | _ => (EmptyString, Err TypeError)
    end
  end.
(* 751-752: _all_data_indexes, before the file is opened, is for items with indexes *)
Definition has_indexes (x : item) : bool := match i_cls x with CDataTimePoint | CDataTimeSlot => true | _ => false end.

Fixpoint str_take (n : nat) (s : string) : string :=
  match n, s with S m, String c r => String c (str_take m r) | _, _ => EmptyString end.
(* storages.py 738-788; open(.., 'w') needs the directory, and empties the file *)
Definition csv_put (nt : num_text) (comments : list string) (d : cdisk) (overwrite : bool) (s : series) (p : list string) (f : cfs) : cfs * result unit :=
  let exists_ := match f p with Some (CFile _) => true | _ => false end in
  if exists_ && negb overwrite then (f, Err GenericException)
  else if negb (forallb has_indexes (s_items s)) then (f, Err AttributeError)
  else match f p, f (removelast p), d with
       | Some CDir, _, _ => (f, Err GenericException)                 (* IsADirectoryError *)
       | _, Some CDir, CFine => let '(t, res) := put_text nt comments s in (cfs_set f p (CFile t), res)
       | _, Some CDir, CFull n => let '(t, res) := put_text nt comments s in
                                  (cfs_set f p (CFile (str_take n t)), if Nat.leb (String.length t) n then res else Err GenericException)
       | _, _, _ => (f, Err GenericException)
       end.
