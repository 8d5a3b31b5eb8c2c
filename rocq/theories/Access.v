(* Access.v -- MODEL of item access, slicing, views, timezones, dictionary conversions and
   label renaming (operations.py 806-999, datastructures.py 884-927, 1126-1142, 1312-1387,
   1524-1572, 1797-1915). *)
From Verif Require Export Series.

(* series.__class__() followed by an append of each item. *)
Definition ts_of_items (e : env) (l : list item) : result series := ts_new e None l.

(* operations.py 992-997: the data reference is re-set to the data of the first item; nothing
   happens if empty or without data. *)
Definition reset_ref (s : series) : series :=
  match s_items s with
  | [] => s
  | x :: _ => match i_data x with Some d => set_ref s (Some (Some d)) | None => s end
  end.

(* datastructures.py 1312-1317 through operations.py 806-848: get(at_t=...) *)
Fixpoint item_by_t (l : list item) (t : Qc) : result item :=
  match l with
  | [] => Err ValueError
  | x :: r => if qeqb (i_t x) t then Ok x else item_by_t r t
  end.
Definition ts_get_t (s : series) (t : Qc) : result item :=
  match s_items s with [] => Err IndexError | l => item_by_t l t end.

(* operations.py 935-938: negative positions *)
Definition norm_i (n : nat) (i : Z) : Z :=
  if Z.ltb i 0 then (Z.of_nat n - Z.abs i)%Z else i.

(* operations.py 971-981: the loop on positions (continue / break) *)
Fixpoint sel_i (from to : option Z) (i : Z) (l : list item) : list item :=
  match l with
  | [] => []
  | x :: r =>
    if match from with Some a => Z.ltb i a | None => false end then sel_i from to (i + 1) r
    else if match to with Some b => Z.leb b i | None => false end then []
    else x :: sel_i from to (i + 1) r
  end.

(* operations.py 951-969: the loop on times (continue / break); slots compare their end *)
Fixpoint sel_t (from to : option Qc) (l : list item) : list item :=
  match l with
  | [] => []
  | x :: r =>
    if match from with Some a => qltb (i_t x) a | None => false end then sel_t from to r
    else if match to with
            | Some b => if is_slot x then qltb b (i_end x) else qleb b (i_t x)
            | None => false
            end then []
    else x :: sel_t from to r
  end.

(* operations.py 881-999: Slice by position; empty series are refused by 47-48. *)
Definition ts_slice_i (e : env) (s : series) (from to : option Z) : result series :=
  match s_items s with
  | [] => Err ValueError
  | l =>
    let from' := option_map (norm_i (length l)) from in
    let to' := option_map (norm_i (length l)) to in
    let go := do r <- ts_of_items e (sel_i from' to' 0 l); Ok (reset_ref r) in
    match from', to' with
    | Some a, Some b => if Z.leb b a then Ok (empty_series None) else go
    | _, _ => go
    end
  end.

(* operations.py 881-999: Slice by time (the dt bounds are converted to epochs, 919-925). *)
Definition ts_slice_t (e : env) (s : series) (from to : option Qc) : result series :=
  match s_items s with
  | [] => Err ValueError
  | l =>
    let go := do r <- ts_of_items e (sel_t from to l); Ok (reset_ref r) in
    match from, to with
    | Some a, Some b => if qleb b a then Ok (empty_series None) else go
    | _, _ => go
    end
  end.

(* The bounds of the square brackets notation. *)
Inductive bound := BNone | BInt (i : Z) | BTime (t : Qc).
Definition bound_i (b : bound) : result (option Z) :=
  match b with BNone => Ok None | BInt i => Ok (Some i) | BTime _ => Err ValueError end.
Definition bound_t (b : bound) : result (option Qc) :=
  match b with BNone => Ok None | BInt i => Ok (Some (qz i)) | BTime t => Ok (Some t) end.

(* datastructures.py 1324-1337: series[a:b] (the step is ignored; no bounds is an error). *)
Definition ts_brackets (e : env) (s : series) (a b : bound) : result series :=
  match a, b with
  | BInt _, _ | _, BInt _ =>
    match s_items s with
    | [] => Err ValueError
    | _ => do a' <- bound_i a; do b' <- bound_i b; ts_slice_i e s a' b'
    end
  | BTime _, _ | _, BTime _ => do a' <- bound_t a; do b' <- bound_t b; ts_slice_t e s a' b'
  | BNone, BNone => Err ValueError
  end.

(* datastructures.py 1128-1142: head and tail, as lists *)
Definition ts_head (e : env) (s : series) (n : Z) : result (list item) :=
  do r <- ts_brackets e s (BInt 0) (BInt n); Ok (s_items r).
Definition ts_tail (e : env) (s : series) (n : Z) : result (list item) :=
  do r <- ts_brackets e s (BInt (- n)) BNone; Ok (s_items r).

(* ---------------- views (datastructures.py 1797-1915) ---------------- *)

(* datastructures.py 1800-1806; only views on a (materialised, non empty) series: for an
   empty underlying series the view falls back on being an ordinary empty series. *)
Record view := mkView { v_series : series; v_from : Z; v_to : Z }.

(* datastructures.py 1868-1872 *)
Definition view_len (v : view) : Z :=
  match s_items (v_series v) with [] => 0 | _ => (v_to v - v_from v)%Z end.

(* range(a, b) *)
Definition zrange (a b : Z) : list Z :=
  map (fun k => (a + Z.of_nat k)%Z) (seq 0 (Z.to_nat (b - a))).

(* datastructures.py 1845-1866: iteration, by repeated positional access on the series *)
Definition view_items (v : view) : result (list item) :=
  match s_items (v_series v) with
  | [] => Ok []
  | _ => mapM (ts_get_i (v_series v)) (zrange (v_from v) (v_to v))
  end.

(* datastructures.py 1836-1840: view[i] *)
Definition view_get (v : view) (i : Z) : result item :=
  match s_items (v_series v) with
  | [] => Err IndexError
  | _ => if Z.leb 0 i then ts_get_i (v_series v) (v_from v + i)
         else ts_get_i (v_series v) (v_to v - Z.abs i)
  end.

(* datastructures.py 1812-1834: view[a:b] with integer or missing bounds *)
Definition view_slice (e : env) (v : view) (a b : option Z) : result series :=
  let start := match a with
               | Some a => if Z.leb 0 a then (v_from v + a)%Z else (v_to v - Z.abs a)%Z
               | None => v_from v end in
  let stop := match b with
              | Some b => if Z.leb 0 b then (v_from v + b)%Z else (v_to v - Z.abs b)%Z
              | None => v_to v end in
  ts_brackets e (v_series v) (BInt start) (BInt stop).

(* datastructures.py 1905-1912: materialize (and duplicate) of a view *)
Definition view_materialize (e : env) (v : view) : result series :=
  do l <- view_items v; ts_of_items e l.

(* ---------------- timezones ---------------- *)

(* datastructures.py 1377-1381 with 164-166, 446-450 *)
Definition ts_change_tz (s : series) (tz : string) : series * result unit :=
  match s_items s with
  | [] => (s, Err UnboundLocalError)
  | l => (set_tz (set_items s (map (fun x => set_item_tz x tz) l)) (Some tz), Ok tt)
  end.

(* datastructures.py 1383-1387 *)
Definition ts_as_tz (e : env) (s : series) (tz : string) : result series :=
  do c <- ts_duplicate e s;
  let '(s', r) := ts_change_tz c tz in do _ <- r; Ok s'.

(* ---------------- dictionaries ---------------- *)

(* What the datetime type keeps of an epoch: s_from_dt(dt_from_s(t)) (propertime; datetimes
   have microseconds), and the end of the slot starting at t (start + unit, propertime). *)
Record dtenv := mkDtenv { dt_epoch : Qc -> Qc; slot_end : Qc -> tunit -> Qc }.

(* An entry of the dictionary: the key is a datetime (its instant and timezone). *)
Record dentry := mkEntry { de_t : Qc; de_tz : string; de_data : data }.

(* dictionary[dt] = data: two datetimes are the same key if they are the same instant; the
   key object (with its timezone) and its position are those of the first insertion. *)
Fixpoint dt_set (t : Qc) (tz : string) (d : data) (m : list dentry) : list dentry :=
  match m with
  | [] => [mkEntry t tz d]
  | x :: r => if qeqb (de_t x) t then mkEntry t (de_tz x) d :: r else x :: dt_set t tz d r
  end.

(* datastructures.py 1567-1572: to_dict *)
Definition ts_to_dict (k : dtenv) (s : series) : result (list dentry) :=
  foldM (fun m x => do d <- item_data x; Ok (dt_set (dt_epoch k (i_t x)) (i_tz x) d m)) (s_items s) [].

(* datastructures.py 1524-1565: from_dict, with datetime keys and list or dict values *)
Definition entry_item (k : dtenv) (unit : option tunit) (x : dentry) : item :=
  match unit with
  | None => mkItem CDataTimePoint (de_t x) (de_t x) (UPhys q0) (de_tz x) (Some (de_data x)) [] None
  | Some u => mkItem CDataTimeSlot (de_t x) (slot_end k (de_t x) u) u (de_tz x) (Some (de_data x)) [] None
  end.
Definition ts_from_dict (e : env) (k : dtenv) (m : list dentry) (unit : option tunit) : result series :=
  ts_of_items e (map (entry_item k unit) m).

(* ---------------- labels and indexes, in place ---------------- *)

Definition ref_missing (s : series) : bool :=
  match s_items s, s_ref s with
  | [], _ => false
  | _, Some (Some d) => negb (data_truthy d)
  | _, _ => true
  end.

(* The reference is the data object of an item: it changes with it.  We identify the object
   by position: the reference follows the first item (see reset_ref); the case in which it is
   the data of an item since removed from the series is not modelled. *)
Definition with_items (s : series) (l : list item) : series := reset_ref (set_items s l).

(* datastructures.py 896-902: item.data[new] = item.data.pop(old); lists raise TypeError
   (list.pop with a string); the items before the failing one are already changed: the
   outcome of an exception is modelled as the exception only. *)
Definition rename_data (old new : string) (d : data) : result data :=
  match d with
  | DList _ => Err TypeError
  | DDict d => match dget old d with
               | None => Err KeyError
               | Some v => Ok (DDict (dset new v (ddel old d)))
               end
  end.
Definition ts_rename_label (s : series) (old new : string) : result series :=
  if ref_missing s then Err TypeError
  else do l <- mapM (fun x => do d <- item_data x; do d' <- rename_data old new d; Ok (set_data x (Some d'))) (s_items s);
       Ok (with_items s l).

(* datastructures.py 904-910: item.data.pop(label, None); list.pop takes one argument at most *)
Definition ts_remove_label (s : series) (label : string) : result series :=
  if ref_missing s then Err TypeError
  else do l <- mapM (fun x => do d <- item_data x;
                              match d with
                              | DList _ => Err TypeError
                              | DDict d => Ok (set_data x (Some (DDict (ddel label d))))
                              end) (s_items s);
       Ok (with_items s l).

(* datastructures.py 912-924 *)
Definition ts_remove_index (s : series) (index : string) : result series :=
  if ref_missing s then Err TypeError
  else Ok (with_items s (map (fun x => set_idx x (ddel index (i_idx x))) (s_items s))).
Definition ts_remove_data_loss (s : series) : result series := ts_remove_index s "data_loss".

(* datastructures.py 884-894: data_labels() of a series; None for empty ones. *)
Definition ts_data_labels (s : series) : result (option (list string)) :=
  match s_items s with
  | [] => Ok None
  | x :: _ => if ref_missing s then Err TypeError
              else do d <- item_data x; Ok (Some (data_labels_of d))
  end.
