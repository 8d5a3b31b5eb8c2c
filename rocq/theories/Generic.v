(* Generic.v -- MODEL of the generic points, slots and series, in any number of dimensions (datastructures.py 27-84, 187-235, 304-392, 531-534, 604-878).

   Simplifications: the items are integers, floats, points and slots, with data or without; the starts and ends of slots are compared by their coordinates only
   when in a series. *)
From Verif Require Export Lists.

Inductive gcls := GInt | GFloat | GPoint | GDataPoint | GSlot | GDataSlot.
Inductive gunit := GVal (q : Qc) | GVec (l : list Qc).
(* g_at: the number, the coordinates or the start of a slot; g_to: its end. *)
Record gitem := mkG { g_cls : gcls; g_at : list Qc; g_to : list Qc; g_data : option data; g_unit : option gunit }.
Definition g_isinstance (c C : gcls) : bool :=
  match c, C with
  | GInt, GInt | GFloat, GFloat | GPoint, GPoint | GDataPoint, (GPoint | GDataPoint) | GSlot, GSlot | GDataSlot, (GSlot | GDataSlot) => true
  | _, _ => false
  end.
Definition cls_slot (c : gcls) : bool := match c with GSlot | GDataSlot => true | _ => false end.
Definition cls_point (c : gcls) : bool := match c with GPoint | GDataPoint => true | _ => false end.
Definition g_slot (x : gitem) : bool := cls_slot (g_cls x).
Definition g_point (x : gitem) : bool := cls_point (g_cls x).

(* 35-45: Point( *args ) ; None is an argument which is not a number *)
Definition new_point (args : list (option Qc)) : result (list Qc) :=
  match args with [] => Err GenericException | _ => mapM (fun a => match a with Some q => Ok q | None => Err GenericException end) args end.

(* 71-81: x > y between points; numbers compare as such *)
Definition g_gt (x y : gitem) : result bool :=
  if (g_point x && Nat.ltb 1 (length (g_at x)))%bool then Err ValueError
  else if (g_point y && Nat.ltb 1 (length (g_at y)))%bool then Err ValueError
  else match g_at x, g_at y with
       | a :: _, b :: _ => Ok (qltb b a)
       | _, _ => Err IndexError
       end.
(* 60-69, 229-235: x == y, when one of them is not a slot (slots are never compared here) *)
Definition g_eq (x y : gitem) : bool :=
  match g_slot x, g_slot y with
  | false, false =>
    (Bool.eqb (g_point x) (g_point y) && (match g_data x, g_data y with Some a, Some b => data_eqb a b | _, _ => true end) && qlist_eqb (g_at x) (g_at y))%bool
  | _, _ => false
  end.
(* 356-360: x.__succedes__(y) *)
Definition g_succeeds (x y : gitem) : bool := qlist_eqb (g_to y) (g_at x).

(* ---- slots ---- *)
(* Where a point or a unit is expected *)
Inductive garg := GNone | GGiven (data : bool) (c : list Qc) | GJunk.
Inductive guarg := GNoUnit | GUnit (u : gunit) | GJunkUnit.
Definition slot_args := (garg * garg * guarg)%type.
(* 316-341, with units.py 29-48: start + unit, which makes a point of the class of the start with one coordinate and nothing else *)
Definition start_plus (data : bool) (c : list Qc) (u : gunit) : result (list Qc) :=
  match u, c with
  | GVal v, [x] => if data then Err NotImplementedError else Ok [(v + x)%Qc]
  | _, _ => Err NotImplementedError
  end.
(* the points with data are taken to have different data only if told so: [same_data] says whether those of the two are equal *)
Definition g_new_slot (same_data : bool) (a : slot_args) : result gitem :=
  let '(start, end_, unit) := a in
  match start with
  | GNone | GJunk => Err TypeError
  | GGiven sd s =>
    match end_ with
    | GJunk => Err TypeError
    | _ =>
      match unit with
      | GJunkUnit => Err TypeError
      | _ =>
        do e <- match end_, unit with
                | GNone, GUnit u => if Nat.ltb 1 (length s) then Err GenericException else start_plus sd s u
                | GGiven ed e, _ =>
                  if negb (Nat.eqb (length s) (length e)) then Err ValueError
                  else if (qlist_eqb s e && (if (sd && ed)%bool then same_data else true))%bool then Err ValueError
                  else Ok e
                | _, _ => Err AttributeError
                end;
        Ok (mkG GSlot s e None (match unit with GUnit u => Some u | _ => None end))
      end
    end
  end.
(* 362-368: the mean of the differences; 370-376: length *)
Definition g_diffs (a b : list Qc) : list Qc := map (fun p => (snd p - fst p)%Qc) (combine a b).
Definition qsum (l : list Qc) : Qc := fold_left Qcplus l q0.
Definition g_length (x : gitem) : Qc := (qsum (g_diffs (g_at x) (g_to x)) / qn (length (g_at x)))%Qc.
(* 378-392: unit *)
Definition g_unit_of (x : gitem) : gunit :=
  match g_unit x with
  | Some u => u
  | None => match g_diffs (g_at x) (g_to x) with [d] => GVal d | l => GVec l end
  end.

(* ---- series ---- *)
Record gseries := mkGS { gs_items : list gitem; gs_ref : option (option data) }.
Definition g_empty : gseries := mkGS [] None.
Definition g_last (l : list gitem) : option gitem := match rev l with [] => None | x :: _ => Some x end.
(* 668-681 and 741-766: the item y can be put after x *)
Definition g_follows (y x : gitem) : result bool := if g_slot y then Ok (g_succeeds y x) else g_gt y x.
(* 684-694 *)
Definition g_check_ref (ref : data) (x : gitem) : result unit :=
  match g_data x with
  | None => Err AttributeError
  | Some d => match ref, d with
    | DList a, DList b => if Nat.eqb (length a) (length b) then Ok tt else Err ValueError
    | DDict a, DDict b => if (forallb (fun k => str_mem k (dkeys b)) (dkeys a) && forallb (fun k => str_mem k (dkeys a)) (dkeys b))%bool then Ok tt else Err ValueError
    | _, _ => Err TypeError
    end
  end.
(* 642-698 *)
Definition g_append (s : gseries) (x : gitem) : gseries * result unit :=
  let add ref := (mkGS (gs_items s ++ [x]) ref, Ok tt) in
  match gs_items s, g_last (gs_items s) with
  | first :: _, Some last =>
    if negb (g_isinstance (g_cls x) (g_cls first)) then (s, Err TypeError)
    else match g_follows x last with
         | Err er => (s, Err er)
         | Ok false => (s, Err ValueError)
         | Ok true =>
           match gs_ref s with
           | None => (s, Err AttributeError)
           | Some (Some ref) => if data_truthy ref then match g_check_ref ref x with Err er => (s, Err er) | Ok _ => add (gs_ref s) end else add (Some (g_data x))
           | Some None => add (Some (g_data x))
           end
         end
  | _, _ => add (Some (g_data x))
  end.
(* 738-778 *)
Definition g_insert (s : gseries) (i : Z) (x : gitem) : gseries * result unit :=
  match gs_items s, g_last (gs_items s) with
  | first :: _, Some last =>
    let done := (mkGS (list_insert (gs_items s) i x) (gs_ref s), Ok tt) in
    let put r er := match r with Err er => (s, Err er) | Ok false => (s, Err er) | Ok true => done end in
    if negb (g_isinstance (g_cls x) (g_cls first)) then (s, Err TypeError)
    else if Z.eqb i 0 then put (g_follows first x) ValueError
    else if Z.eqb i (Z.of_nat (length (gs_items s))) then put (g_follows x last) ValueError
    else if g_slot first then (s, Err IndexError)
    else match list_get (gs_items s) (i - 1) with
         | Err er => (s, Err er)
         | Ok prev => put (g_gt x prev) (match list_get (gs_items s) i with Err er => er | Ok _ => ValueError end)
         end
  | _, _ => g_append s x
  end.
(* 780-792 *)
Fixpoint g_list_remove (l : list gitem) (x : gitem) : option (list gitem) :=
  match l with
  | [] => None
  | y :: r => if g_eq y x then Some r else match g_list_remove r x with Some r' => Some (y :: r') | None => None end
  end.
Definition g_remove (s : gseries) (x : gitem) : gseries * result unit :=
  match gs_items s with
  | [] => (s, Err ValueError)
  | first :: _ =>
    if g_slot first then (s, Err NotImplementedError)
    else match g_list_remove (gs_items s) x with Some l => (mkGS l (gs_ref s), Ok tt) | None => (s, Err ValueError) end
  end.
(* 794-812 *)
Definition g_pop (s : gseries) (i : option Z) : gseries * result gitem :=
  match gs_items s with
  | [] => (s, Err IndexError)
  | first :: _ =>
    let out i := match list_pop (gs_items s) i with Ok (x, l) => (mkGS l (gs_ref s), Ok x) | Err er => (s, Err er) end in
    match i with
    | Some i => if (negb (Z.eqb i 0 || Z.eqb i (Z.of_nat (length (gs_items s)))) && g_slot first)%bool then (s, Err IndexError) else out i
    | None => out (-1)%Z
    end
  end.
(* 814-816 *)
Definition g_clear (s : gseries) : gseries * result unit := (mkGS [] (gs_ref s), Ok tt).

Inductive gop := GAppend (x : gitem) | GInsert (i : Z) (x : gitem) | GRemove (x : gitem) | GPop (i : option Z) | GClear | GDisabled.
Definition g_step (s : gseries) (o : gop) : gseries * result unit :=
  match o with
  | GAppend x => g_append s x
  | GInsert i x => g_insert s i x
  | GRemove x => g_remove s x
  | GPop i => let '(s', r) := g_pop s i in (s', match r with Ok _ => Ok tt | Err er => Err er end)
  | GClear => g_clear s
  | GDisabled => (s, Err NotImplementedError)   (* 843-858 *)
  end.
Definition g_run (s : gseries) (os : list gop) : gseries := fold_left (fun s o => fst (g_step s o)) os s.
(* 626-632: Series( *items ) *)
Definition g_new (l : list gitem) : result gseries := foldM (fun s x => let '(s', r) := g_append s x in do _ <- r; Ok s') l g_empty.
(* 865-872: series[i:j:k], as the positions Python's range gives *)
Definition g_slice (s : gseries) (positions : list nat) : result gseries :=
  do l <- mapM (fun i => match nth_error (gs_items s) i with Some x => Ok x | None => Err IndexError end) positions;
  g_new l.
