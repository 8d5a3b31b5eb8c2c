(* Alias.v -- MODEL of the objects behind the series, for the properties on sharing (C35):
   the items, their data and their index dictionaries are mutable objects, a series holds
   references to items, an item holds references to its data and to its indexes
   (datastructures.py 187-221, 489-523: the constructors keep the objects they are given).

   Simplification: addresses are positions in three growing lists, nothing is ever freed. *)
From Verif Require Export Ops.

Record hitem := mkHItem { hi_static : item; hi_data : nat; hi_idx : nat }.
Record heap := mkHeap { hp_items : list hitem; hp_datas : list data; hp_idxs : list (dict (option Qc)) }.

(* the value of an item: what attribute access gives now *)
Definition read_item (h : heap) (a : nat) : option item :=
  match nth_error (hp_items h) a with
  | None => None
  | Some x =>
    match nth_error (hp_datas h) (hi_data x), nth_error (hp_idxs h) (hi_idx x) with
    | Some d, Some ix => Some (set_idx (set_data (hi_static x) (Some d)) ix)
    | _, _ => None
    end
  end.
(* a series: the references to its items *)
Definition hseries := list nat.
Definition read_series (h : heap) (s : hseries) : list (option item) := map (read_item h) s.

(* DataTimePoint(..., data=d, data_indexes=ix) where ix is either an existing object or a new one *)
Definition alloc_item (h : heap) (x : item) (share : option nat) : heap * nat :=
  let d := match i_data x with Some d => d | None => DDict [] end in
  let '(idxs, ixa) := match share with
                      | Some a => (hp_idxs h, a)
                      | None => (hp_idxs h ++ [i_idx x], length (hp_idxs h))
                      end in
  (mkHeap (hp_items h ++ [mkHItem x (length (hp_datas h)) ixa]) (hp_datas h ++ [d]) idxs, length (hp_items h)).
Fixpoint alloc_all (h : heap) (l : list (item * option nat)) : heap * hseries :=
  match l with
  | [] => (h, [])
  | (x, sh) :: r => let '(h1, a) := alloc_item h x sh in
                    let '(h2, s) := alloc_all h1 r in (h2, a :: s)
  end.

(* the address of the index dictionary of the item at address a *)
Definition idx_addr (h : heap) (a : nat) : option nat :=
  match nth_error (hp_items h) a with Some x => Some (hi_idx x) | None => None end.

Fixpoint all_some {A} (l : list (option A)) : option (list A) :=
  match l with
  | [] => Some []
  | Some x :: r => match all_some r with Some r' => Some (x :: r') | None => None end
  | None :: _ => None
  end.

(* An out-of-place operation: it computes the items of the result from the items of the source,
   then creates them one by one.  plan says which source item (by position) each result item
   takes its index dictionary from: operations.py 343, 502 (derivative, integral, diff, csum),
   605 (normalize), 668 (rescale), 733 (offset) pass `data_indexes = item.data_indexes`, and
   filter (867) uses copy(item); the moving average (790-800) and merge (1130-1144) do not. *)
Definition h_op (F : list item -> result (list item)) (plan : nat -> option nat) (h : heap) (s : hseries) : result (heap * hseries) :=
  match all_some (read_series h s) with
  | None => Err AttributeError
  | Some l =>
    do out <- F l;
    Ok (alloc_all h (map (fun jx => (snd jx, match plan (fst jx) with
                                             | Some p => match nth_error s p with Some a => idx_addr h a | None => None end
                                             | None => None
                                             end)) (combine (seq 0 (length out)) out)))
  end.

(* Slices (datastructures.py 939-1010) and select (operations.py 1177-1187) reference the same items. *)
Definition h_slice (from to : nat) (s : hseries) : hseries := firstn (to - from) (skipn from s).

(* What a user can do to the objects reached from a series: item.data[...] = v (any new content),
   item.data_indexes[...] = v, item.data_indexes = {...}. *)
Inductive hwrite :=
| WData (pos : nat) (d : data)                   (* the content of series[pos].data *)
| WIdx (pos : nat) (ix : dict (option Qc))       (* the content of series[pos].data_indexes *)
| WNewIdx (pos : nat) (ix : dict (option Qc)).   (* series[pos].data_indexes = a new dictionary *)
Definition h_write (h : heap) (s : hseries) (w : hwrite) : heap :=
  let at_pos p := match nth_error s p with
                  | Some a => match nth_error (hp_items h) a with Some x => Some (a, x) | None => None end
                  | None => None
                  end in
  match w with
  | WData p d => match at_pos p with
                 | Some (a, x) => mkHeap (hp_items h) (list_update (hp_datas h) (hi_data x) d) (hp_idxs h)
                 | None => h
                 end
  | WIdx p ix => match at_pos p with
                 | Some (a, x) => mkHeap (hp_items h) (hp_datas h) (list_update (hp_idxs h) (hi_idx x) ix)
                 | None => h
                 end
  | WNewIdx p ix => match at_pos p with
                    | Some (a, x) => mkHeap (list_update (hp_items h) a (mkHItem (hi_static x) (hi_data x) (length (hp_idxs h))))
                                            (hp_datas h) (hp_idxs h ++ [ix])
                    | None => h
                    end
  end.
