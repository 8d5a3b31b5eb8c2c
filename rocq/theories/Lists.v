(* Lists.v -- MODEL of a series used as a list: what Series inherits from list, or overrides in a few lines (datastructures.py 604, 818-831).

   Series is a subclass of list which does not define __setitem__, __delitem__, __iadd__, __imul__, __add__ and __contains__: these are the ones
   of Python's list, and only change (or read) the items: all the rest (resolution, last timestamp, timezone, data reference) stays as it is. *)
From Verif Require Export Series.

(* list.__setitem__ of a position *)
Definition list_set {A} (l : list A) (i : Z) (x : A) : result (list A) :=
  let n := Z.of_nat (length l) in
  let j := if Z.ltb i 0 then (i + n)%Z else i in
  if (Z.leb 0 j && Z.ltb j n)%bool then Ok (firstn (Z.to_nat j) l ++ x :: skipn (S (Z.to_nat j)) l) else Err IndexError.
(* series[i] = x *)
Definition ts_set_item (s : series) (i : Z) (x : item) : series * result unit :=
  match list_set (s_items s) i x with Ok l => (set_items s l, Ok tt) | Err er => (s, Err er) end.
(* del series[i] *)
Definition ts_del_item (s : series) (i : Z) : series * result unit :=
  match list_pop (s_items s) i with Ok (_, l) => (set_items s l, Ok tt) | Err er => (s, Err er) end.
(* series += items: list.__iadd__ does not call the (disabled) extend *)
Definition ts_iadd (s : series) (l : list item) : series * result unit := (set_items s (s_items s ++ l), Ok tt).
(* series *= n *)
Definition ts_imul (s : series) (n : Z) : series * result unit := (set_items s (concat (repeat (s_items s) (Z.to_nat n))), Ok tt).

(* The calls of Series.v, and these. *)
Inductive lop := LCall (o : op) | LSet (i : Z) (x : item) | LDel (i : Z) | LIadd (l : list item) | LImul (n : Z).
Definition lstep (e : env) (s : series) (o : lop) : series * result unit :=
  match o with
  | LCall o => step e s o
  | LSet i x => ts_set_item s i x
  | LDel i => ts_del_item s i
  | LIadd l => ts_iadd s l
  | LImul n => ts_imul s n
  end.
Definition lrun (e : env) (s : series) (os : list lop) : series := fold_left (fun s o => fst (lstep e s o)) os s.

(* x == y between the items of the four classes. Points (60-69, 229-235): the data are compared if both have data, and anything without coordinates is different.
   Slots (349-354, 531-534): the attributes of the other one are read with no check; when the class of y is a subclass of the one of x its __eq__
   is called, which makes no difference. *)
Definition has_data (x : item) : bool := match i_data x with Some _ => true | None => false end.
Definition item_eq (x y : item) : result bool :=
  if is_point x then (if is_point y then Ok (item_eqb x y) else Ok false)
  else if is_point y then
    match i_data x, i_data y with
    | Some a, Some b => if data_eqb a b then Err AttributeError else Ok false   (* 532: the data; 350: other.start *)
    | _, _ => Err AttributeError
    end
  else if Bool.eqb (has_data x) (has_data y) then Ok (item_eqb x y) else Err AttributeError.

(* x in series: list.__contains__, which compares the items one by one *)
Fixpoint list_contains (l : list item) (x : item) : result bool :=
  match l with [] => Ok false | y :: r => do b <- item_eq y x; if b then Ok true else list_contains r x end.
Definition ts_contains (s : series) (x : item) : result bool := list_contains (s_items s) x.

(* list.index(x, start, end) with integers: the bounds as those of a slice *)
Definition clamp (n i : Z) : Z := if Z.ltb i 0 then Z.max 0 (i + n) else i.
Fixpoint find_from (k : nat) (l : list item) (x : item) (a b : Z) : result nat :=
  match l with
  | [] => Err ValueError
  | y :: r =>
    if (Z.leb a (Z.of_nat k) && Z.ltb (Z.of_nat k) b)%bool then do c <- item_eq y x; if c then Ok k else find_from (S k) r x a b
    else find_from (S k) r x a b
  end.
Definition list_index (l : list item) (x : item) (a b : option Z) : result nat :=
  match a, b with
  | Some a, Some b => let n := Z.of_nat (length l) in find_from 0 l x (clamp n a) (clamp n b)
  | _, _ => Err TypeError   (* None is not accepted as a bound *)
  end.
(* 818-827: super().index(x, start, end), whose result is not returned *)
Definition ts_index (s : series) (x : item) (a b : option Z) : result (option nat) := do _ <- list_index (s_items s) x a b; Ok None.

(* What is made of the items of a series: a list or a series. *)
Inductive made := PlainList (l : list item) | ASeries (s : series).
(* 829-831: super().copy(), which is a list *)
Definition ts_copy (s : series) : made := PlainList (s_items s).
(* series + items: list.__add__ *)
Definition ts_add (s : series) (l : list item) : made := PlainList (s_items s ++ l).
