(* Plots.v -- MODEL of the data and of the range given to the plots (plots.py 137-354, 399-480, 688-735).

   A row has a time, its timezone (used to write it as a date) and the cells.  The text of dates and numbers (two or four decimals, or
   full precision), the HTML, the JavaScript and the images are not modelled.  RENDER_MARK_AS_INDEX is false, so that a mark adds
   nothing to the rows.  The data of items are numbers by position or by label. *)
From Verif Require Export Csv.

Inductive cell :=
| CNum (v : Qc)
| CNull
| CBand (lo mid hi : Qc).
Record row_ := mkRow { w_t : Qc; w_tz : string; w_cells : list cell }.

(* plots.py 204-209, 211-216, 302-313: if None the value, otherwise the smaller (greater) one *)
Definition keep_min (m : option Qc) (v : Qc) : option Qc := match m with None => Some v | Some w => if qltb v w then Some v else Some w end.
Definition keep_max (m : option Qc) (v : Qc) : option Qc := match m with None => Some v | Some w => if qltb w v then Some v else Some w end.
Definition vrange := (option Qc * option Qc)%type.
Definition keep (g : vrange) (v : Qc) : vrange := (keep_min (fst g) v, keep_max (snd g) v).
Fixpoint zip_with {A B C} (f : A -> B -> C) (l : list A) (r : list B) : list C :=
  match l, r with x :: l, y :: r => f x y :: zip_with f l r | _, _ => [] end.

(* ---- without aggregation: plots.py 287-345 ---- *)
(* 315-328 *)
Definition index_cell (x : item) (k : string) : cell := match dget k (i_idx x) with Some (Some v) => CNum v | _ => CNull end.
Definition plain_row (labels indexes : list string) (x : item) (g : vrange) : result (row_ * vrange) :=
  do vs <- mapM (item_by_label x) labels;
  Ok (mkRow (i_t x) (i_tz x) (map CNum vs ++ map (index_cell x) indexes), fold_left keep vs g).
Fixpoint plain_rows (labels indexes : list string) (l : list item) (g : vrange) : result (list row_ * vrange) :=
  match l with
  | [] => Ok ([], g)
  | x :: l => do a <- plain_row labels indexes x g; do b <- plain_rows labels indexes l (snd a); Ok (fst a :: fst b, snd b)
  end.

(* ---- with aggregation: plots.py 172-285 ---- *)
Record group := mkGroup { g_first : option Qc; g_sums : list Qc; g_mins : list (option Qc); g_maxs : list (option Qc); g_idx : list Qc }.
(* 165-168, 279-282 *)
Definition new_group (labels indexes : list string) : group :=
  mkGroup None (map (fun _ => q0) labels) (map (fun _ => None) labels) (map (fun _ => None) labels) (map (fun _ => q0) indexes).
(* 227-234: a missing index, or one without a value, adds nothing *)
Definition index_add (x : item) (k : string) (sum : Qc) : Qc := match dget k (i_idx x) with Some (Some v) => Qcplus sum v | _ => sum end.
(* 174-234 *)
Definition group_add (labels indexes : list string) (g : group) (x : item) : result (group * list Qc) :=
  do vs <- mapM (item_by_label x) labels;
  Ok (mkGroup (match g_first g with None => Some (i_t x) | t => t end) (zip_with Qcplus (g_sums g) vs) (zip_with keep_min (g_mins g) vs) (zip_with keep_max (g_maxs g) vs)
        (zip_with (index_add x) indexes (g_idx g)), vs).
(* 238-275: the row of a full group, at the middle of it; slots: the class of the items of the series *)
Definition band (n : nat) (lo sum hi : option Qc) : result cell :=
  match lo, sum, hi with Some lo, Some s, Some hi => do a <- qdiv s (qn n); Ok (CBand lo a hi) | _, _, _ => Err TypeError end.
Fixpoint bands (n : nat) (los : list (option Qc)) (sums : list Qc) (his : list (option Qc)) : result (list cell) :=
  match los, sums, his with
  | lo :: los, s :: sums, hi :: his => do c <- band n lo (Some s) hi; do r <- bands n los sums his; Ok (c :: r)
  | _, _, _ => Ok []
  end.
Definition index_band (n : nat) (sum : Qc) : result cell := do v <- qdiv sum (qn n); Ok (CBand q0 v v).
Definition group_row (slots : bool) (n : nat) (g : group) (x : item) : result row_ :=
  do first <- match g_first g with Some t => Ok t | None => Err TypeError end;
  let last := if slots then i_end x else i_t x in
  do cs <- bands n (g_mins g) (g_sums g) (g_maxs g);
  do ks <- mapM (index_band n) (g_idx g);
  Ok (mkRow (Qcplus first (qhalf (Qcminus last first))) (i_tz x) (cs ++ ks)).
(* i: the items before; the rows when the number of items is a multiple of n *)
Fixpoint grouped_rows (slots : bool) (n : nat) (labels indexes : list string) (i : nat) (g : group) (l : list item) (r : vrange) : result (list row_ * vrange) :=
  match l with
  | [] => Ok ([], r)
  | x :: l =>
    do a <- group_add labels indexes g x;
    let r := fold_left keep (snd a) r in
    if Nat.eqb (Nat.modulo (S i) n) 0 then
      do w <- group_row slots n (fst a) x;
      do b <- grouped_rows slots n labels indexes (S i) (new_group labels indexes) l r; Ok (w :: fst b, snd b)
    else grouped_rows slots n labels indexes (S i) (fst a) l r
  end.

(* plots.py 137-349.  Without labels the data themselves (a list or a dictionary) would be plotted: adding, comparing or formatting
   them raises TypeError *)
Definition plot_rows (labels indexes : list string) (aggregate_by : option nat) (slots : bool) (l : list item) : result (list row_ * vrange) :=
  match labels with
  | [] => Err TypeError
  | _ => match aggregate_by with
         | Some (S n) => grouped_rows slots (S n) labels indexes 0 (new_group labels indexes) l (None, None)
         | _ => plain_rows labels indexes l (None, None)
         end
  end.

(* ---- dygraphs_plot ---- *)
(* 419-432: the threshold is AGGREGATE_THRESHOLD *)
Definition aggregation (threshold n : nat) (aggregate : option bool) (aggregate_by : option nat) : option nat :=
  let by_ := match aggregate_by with
             | Some k => Some k
             | None => if Nat.ltb threshold n then Some (10 ^ String.length (nat_str (Nat.div n threshold))) else None
             end in
  match aggregate with Some false => None | _ => by_ end.

Inductive choice := All | Nothing | These (l : list string).
(* 442-478: all, none, or a list of names which have to be there *)
Definition chosen (c : choice) (available : result (list string)) : result (list string) :=
  match c with
  | All => available
  | Nothing => Ok []
  | These l => mapM (fun k => do a <- available; if str_mem k a then Ok k else Err ValueError) l
  end.

(* 690-714: the names of the columns, which are written one after the other with commas and then split *)
Definition column_names (lists : bool) (labels indexes : list string) : list string :=
  let names := match labels with
               | [] => ["value"%string]
               | [l] => [if lists then "value"%string else l]
               | _ => map (fun l => if lists then ("value " ++ l)%string else l) labels
               end in
  "Timestamp"%string :: split_on "," (join "," (names ++ indexes)).

(* 718-732: the range of the values in the plot *)
Definition tenth : Qc := qfrac 1 10.
Definition plot_range (r : vrange) (height : option Qc) (value_range : option (Qc * Qc)) : result (Qc * Qc) :=
  match fst r, snd r with
  | Some lo, Some hi =>
    let hi := match height with Some h => if qeqb h q0 then hi else h | None => hi end in
    Ok (match value_range with
        | Some (a, b) => (Qcmult a (qfrac 99 100), Qcmult b (qfrac 101 100))
        | None => if qeqb hi lo then (Qcmult lo (qfrac 99 100), Qcmult hi (qfrac 101 100))
                  else (Qcminus lo (Qcmult (Qcminus hi lo) tenth), Qcplus hi (Qcmult (Qcminus hi lo) tenth))
        end)
  | _, _ => Err TypeError
  end.

Record plotted := mkPlotted { p_columns : list string; p_rows : list row_; p_range : Qc * Qc }.
Definition plot (threshold : nat) (s : series) (labels indexes : choice) (aggregate : option bool) (aggregate_by : option nat) (height : option Qc) (value_range : option (Qc * Qc)) : result plotted :=
  match s_items s with
  | [] => Err GenericException
  | x0 :: _ =>
    let by_ := aggregation threshold (length (s_items s)) aggregate aggregate_by in
    do ls <- chosen labels (labels_of s);
    do ix <- chosen indexes (Ok (all_indexes (s_items s)));
    do rows <- plot_rows ls ix by_ (is_slot x0) (s_items s);
    do range <- plot_range (snd rows) height value_range;
    Ok (mkPlotted (column_names (match i_data x0 with Some (DList _) => true | _ => false end) ls ix) (fst rows) range)
  end.
