(* Series.v -- MODEL of the Series / TimeSeries container as a state machine
   (datastructures.py 604-878 and 1150-1433).

   Every mutator returns the new state together with its outcome, because several
   of them change the object before raising.  Logging is not modelled. *)
From Verif Require Export Items.

(* What the code gets from the propertime library:
   - unit_close a b : _is_close(a, b) on two TimeUnits (datastructures.py 1297), may raise;
   - unit_of_s x    : TimeUnit(_to_time_unit_string(x)) (datastructures.py 1258), may raise. *)
Record env := mkEnv {
  unit_close : tunit -> tunit -> result bool;
  unit_of_s : Qc -> result tunit }.

(* TimeSeries.resolution values: the string 'variable' or a unit. *)
Inductive res := RVar | RUnit (u : tunit).

(* The attributes of a TimeSeries object. None = attribute not set. *)
Record series := mkSeries {
  s_items : list item;                (* the list contents *)
  s_prev_t : option Qc;               (* prev_t *)
  s_res : option res;                 (* _resolution *)
  s_res_s : option Qc;                (* _resolution_as_seconds *)
  s_tz : option string;               (* _tz *)
  s_ref : option (option data) }.     (* _item_data_reference *)

Definition set_items s l := mkSeries l (s_prev_t s) (s_res s) (s_res_s s) (s_tz s) (s_ref s).
Definition set_prev s p := mkSeries (s_items s) p (s_res s) (s_res_s s) (s_tz s) (s_ref s).
Definition set_res s r := mkSeries (s_items s) (s_prev_t s) r (s_res_s s) (s_tz s) (s_ref s).
Definition set_res_s s r := mkSeries (s_items s) (s_prev_t s) (s_res s) r (s_tz s) (s_ref s).
Definition set_tz s z := mkSeries (s_items s) (s_prev_t s) (s_res s) (s_res_s s) z (s_ref s).
Definition set_ref s r := mkSeries (s_items s) (s_prev_t s) (s_res s) (s_res_s s) (s_tz s) r.

(* datastructures.py 1206-1215: TimeSeries() and TimeSeries(tz=...) *)
Definition empty_series (tz : option string) : series := mkSeries [] None None None tz None.

Definition last_item (l : list item) : option item :=
  match rev l with [] => None | x :: _ => Some x end.

(* datastructures.py 634-640: item_type *)
Definition item_type (s : series) : option icls :=
  match s_items s with [] => None | x :: _ => Some (i_cls x) end.

(* datastructures.py 683-691: the data type and labels check against the reference. *)
Definition check_ref (ref : data) (it : item) : result unit :=
  do d <- item_data it;
  match ref, d with
  | DList a, DList b => if Nat.eqb (length a) (length b) then Ok tt else Err ValueError
  | DDict a, DDict b => if same_set (dkeys a) (dkeys b) then Ok tt else Err ValueError
  | _, _ => Err TypeError
  end.

(* datastructures.py 668-680: order or succession with the last item (slots have
   __succedes__, points do not and fall back on >). *)
Definition follows (it last : item) : bool :=
  if is_slot it then succeeds it last else point_gt it last.

(* datastructures.py 642-699: Series.append *)
Definition series_append (s : series) (it : item) : series * result unit :=
  match last_item (s_items s), item_type s with
  | Some last, Some C =>
    if negb (cls_isinstance (i_cls it) C) then (s, Err TypeError)
    else if negb (follows it last) then (s, Err ValueError)
    else match s_ref s with
         | None => (s, Err AttributeError)
         | Some (Some ref) =>
           if data_truthy ref then
             match check_ref ref it with
             | Err e => (s, Err e)
             | Ok _ => (set_items s (s_items s ++ [it]), Ok tt)
             end
           else (set_items (set_ref s (Some (i_data it))) (s_items s ++ [it]), Ok tt)
         | Some None => (set_items (set_ref s (Some (i_data it))) (s_items s ++ [it]), Ok tt)
         end
  | _, _ => (set_items (set_ref s (Some (i_data it))) (s_items s ++ [it]), Ok tt)
  end.

(* datastructures.py 1257: int(time_diff*10000000)/10000000 *)
Definition trunc7 (x : Qc) : Qc :=
  Qcdiv (qz (qtrunc (Qcmult x (qz 10000000)))) (qz 10000000).

(* datastructures.py 1227-1275 then 1310: append of a point. The `finally` sets
   prev_t on every path, also when raising.  The cache deletion at 1268-1273 never
   succeeds (the property has no deleter, the exception is swallowed): no effect. *)
Definition append_point (e : env) (s : series) (it : item) : series * result unit :=
  let fin s := set_prev s (Some (i_t it)) in
  match s_prev_t s with
  | None => series_append (fin s) it
  | Some p =>
    match s_items s with
    | [] => series_append (fin s) it
    | _ :: _ =>
      if qltb (i_t it) p then (fin s, Err ValueError)
      else if qeqb (i_t it) p then (fin s, Err ValueError)
      else match s_res s with
           | None =>
             let s1 := set_res_s s (Some (Qcminus (i_t it) p)) in
             match unit_of_s e (trunc7 (Qcminus (i_t it) p)) with
             | Err x => (fin s1, Err x)
             | Ok u => series_append (fin (set_res s1 (Some (RUnit u)))) it
             end
           | Some RVar => series_append (fin s) it
           | Some (RUnit _) =>
             match s_res_s s with
             | None => (fin s, Err AttributeError)
             | Some r =>
               if negb (qeqb r (Qcminus (i_t it) p))
               then series_append (fin (set_res (set_res_s s None) (Some RVar))) it
               else series_append (fin s) it
             end
           end
    end
  end.

(* datastructures.py 1357-1375: the tz property. *)
Fixpoint detect_tz (acc : option string) (l : list item) : option string :=
  match l with
  | [] => acc
  | x :: r => match acc with
              | None => detect_tz (Some (i_tz x)) r
              | Some z => if String.eqb (i_tz x) z then detect_tz acc r else Some "UTC"%string
              end
  end.
Definition series_tz (s : series) : option string :=
  match s_tz s with Some z => Some z | None => detect_tz None (s_items s) end.

(* datastructures.py 1292-1304: the unit check of a slot against the resolution. *)
Definition check_unit (e : env) (s : series) (it : item) : series * result unit :=
  match s_res s with
  | None => (set_res s (Some (RUnit (i_unit it))), Ok tt)
  | Some RVar => (s, Err ValueError)
  | Some (RUnit u) =>
    if tunit_eqb u (i_unit it) then (s, Ok tt)
    else match unit_close e u (i_unit it) with
         | Ok true => (s, Ok tt)
         | Ok false => (s, Err ValueError)
         | Err (TypeError | ValueError | NotImplementedError) => (s, Err ValueError)
         | Err AttributeError => (set_res s (Some (RUnit (i_unit it))), Ok tt)
         | Err x => (s, Err x)
         end
  end.

(* datastructures.py 1277-1304 then 1310: append of a slot. *)
Definition append_slot (e : env) (s : series) (it : item) : series * result unit :=
  let '(s1, r1) :=
    match series_tz s with
    | None => (set_tz s (Some (i_tz it)), Ok tt)
    | Some _ => match s_tz s with
                | None => (s, Err AttributeError)
                | Some z => if String.eqb z (i_tz it) then (s, Ok tt) else (s, Err ValueError)
                end
    end in
  match r1 with
  | Err x => (s1, Err x)
  | Ok _ => let '(s2, r2) := check_unit e s1 it in
            match r2 with
            | Err x => (s2, Err x)
            | Ok _ => series_append s2 it
            end
  end.

(* datastructures.py 1222-1310: TimeSeries.append *)
Definition ts_append (e : env) (s : series) (it : item) : series * result unit :=
  if is_point it then append_point e s it else append_slot e s it.

(* datastructures.py 1416-1433: the resolution property *)
Definition resolution (s : series) : option res := s_res s.

(* ---- Python's list primitives used by the mutators ---- *)

(* list.insert(i, x): the position is clamped *)
Definition list_insert {A} (l : list A) (i : Z) (x : A) : list A :=
  let n := Z.of_nat (length l) in
  let j := if Z.ltb i 0 then Z.max 0 (i + n) else Z.min i n in
  firstn (Z.to_nat j) l ++ x :: skipn (Z.to_nat j) l.

(* l[i] *)
Definition list_get {A} (l : list A) (i : Z) : result A :=
  let n := Z.of_nat (length l) in
  let j := if Z.ltb i 0 then (i + n)%Z else i in
  if (Z.leb 0 j && Z.ltb j n)%bool
  then match nth_error l (Z.to_nat j) with Some x => Ok x | None => Err IndexError end
  else Err IndexError.

(* list.pop(i) *)
Definition list_pop {A} (l : list A) (i : Z) : result (A * list A) :=
  let n := Z.of_nat (length l) in
  let j := if Z.ltb i 0 then (i + n)%Z else i in
  if (Z.leb 0 j && Z.ltb j n)%bool
  then match nth_error l (Z.to_nat j) with
       | Some x => Ok (x, firstn (Z.to_nat j) l ++ skipn (S (Z.to_nat j)) l)
       | None => Err IndexError
       end
  else Err IndexError.

(* list.remove(x): the first equal item *)
Fixpoint list_remove (l : list item) (x : item) : option (list item) :=
  match l with
  | [] => None
  | y :: r => if item_eqb y x then Some r
              else match list_remove r x with Some r' => Some (y :: r') | None => None end
  end.

(* operations.py 806-848 through datastructures.py 1324-1351 and 837-838: series[i]
   for an integer i.  Get refuses empty series (809-811), turns a negative index in
   len - |i| (838-839) and then uses list.__getitem__, which wraps again. *)
Definition ts_get_i (s : series) (i : Z) : result item :=
  match s_items s with
  | [] => Err IndexError
  | _ => let i' := if Z.ltb i 0 then (Z.of_nat (length (s_items s)) - Z.abs i)%Z else i in
         list_get (s_items s) i'
  end.

(* datastructures.py 738-778: insert. Accesses self[..] go through TimeSeries.__getitem__. *)
Definition ts_insert (e : env) (s : series) (i : Z) (x : item) : series * result unit :=
  match s_items s with
  | [] => ts_append e s x
  | first :: _ =>
    if negb (cls_isinstance (i_cls x) (i_cls first)) then (s, Err TypeError)
    else
      let done := (set_items s (list_insert (s_items s) i x), Ok tt) in
      if Z.eqb i 0 then
        (if is_slot first then
           if succeeds first x then done else (s, Err ValueError)
         else if point_gt first x then done else (s, Err ValueError))
      else if Z.eqb i (Z.of_nat (length (s_items s))) then
        match last_item (s_items s) with
        | None => (s, Err IndexError)
        | Some last =>
          if is_slot x then
            if succeeds x last then done else (s, Err ValueError)
          else if point_gt x last then done else (s, Err ValueError)
        end
      else
        if is_slot first then (s, Err IndexError)
        else match ts_get_i s (i - 1) with
             | Err er => (s, Err er)
             | Ok prev => if point_gt x prev then done
                          else match ts_get_i s i with   (* the message formats self[i] *)
                               | Err er => (s, Err er)
                               | Ok _ => (s, Err ValueError)
                               end
             end
  end.

(* datastructures.py 780-792: remove *)
Definition ts_remove (s : series) (x : item) : series * result unit :=
  match s_items s with
  | [] => (s, Err ValueError)
  | first :: _ =>
    if is_slot first then (s, Err NotImplementedError)
    else match list_remove (s_items s) x with
         | Some l => (set_items s l, Ok tt)
         | None => (s, Err ValueError)
         end
  end.

(* datastructures.py 794-812: pop *)
Definition ts_pop (s : series) (i : option Z) : series * result item :=
  match s_items s with
  | [] => (s, Err IndexError)
  | first :: _ =>
    let n := Z.of_nat (length (s_items s)) in
    match i with
    | Some i =>
      if negb (Z.eqb i 0 || Z.eqb i n) && is_slot first then (s, Err IndexError)
      else match list_pop (s_items s) i with
           | Ok (x, l) => (set_items s l, Ok x)
           | Err er => (s, Err er)
           end
    | None => match list_pop (s_items s) (-1) with
              | Ok (x, l) => (set_items s l, Ok x)
              | Err er => (s, Err er)
              end
    end
  end.

(* datastructures.py 814-816: clear *)
Definition ts_clear (s : series) : series * result unit := (set_items s [], Ok tt).

(* The mutating calls of a series; extend, count, sort and reverse are the disabled
   ones (datastructures.py 843-858: they always raise NotImplementedError). *)
Inductive op :=
| OAppend (x : item)
| OInsert (i : Z) (x : item)
| ORemove (x : item)
| OPop (i : option Z)
| OClear
| OExtend | OCount | OSort | OReverse.

Definition step (e : env) (s : series) (o : op) : series * result unit :=
  match o with
  | OAppend x => ts_append e s x
  | OInsert i x => ts_insert e s i x
  | ORemove x => ts_remove s x
  | OPop i => let '(s', r) := ts_pop s i in
              (s', match r with Ok _ => Ok tt | Err x => Err x end)
  | OClear => ts_clear s
  | OExtend | OCount | OSort | OReverse => (s, Err NotImplementedError)
  end.

(* A whole history of calls: the exceptions are caught by the caller, who goes on. *)
Definition run (e : env) (s : series) (os : list op) : series :=
  fold_left (fun s o => fst (step e s o)) os s.
Definition appends (e : env) (s : series) (xs : list item) : series :=
  fold_left (fun s x => fst (ts_append e s x)) xs s.

(* TimeSeries( *items ): datastructures.py 626-632 and 1206-1215. The constructor
   propagates the first exception. *)
Definition ts_new (e : env) (tz : option string) (xs : list item) : result series :=
  foldM (fun s x => let '(s', r) := ts_append e s x in do _ <- r; Ok s') xs (empty_series tz).

(* datastructures.py 833-835 with Python's copy protocol for list subclasses: the
   attributes are copied first, then the (copied) items are appended one by one,
   on an object with no items yet. *)
Definition ts_duplicate (e : env) (s : series) : result series :=
  foldM (fun s x => let '(s', r) := ts_append e s x in do _ <- r; Ok s') (s_items s) (set_items s []).
