(* Events.v -- MODEL of mark_events (models/anomaly_detectors.py 51-128).

   Not in place: the events are marked on a duplicate.  In place the same steps are done on the series itself; how it is
   left if an exception is raised half way is not modelled. *)
From Verif Require Export Recon.

(* item.data_indexes['anomaly'], compared with a number: a missing index raises KeyError, an undefined one TypeError *)
Definition anomaly_of (x : item) : result Qc :=
  match i_data x with
  | None => Err AttributeError
  | Some _ => match dget "anomaly" (i_idx x) with
              | None => Err KeyError
              | Some None => Err TypeError
              | Some (Some v) => Ok v
              end
  end.
Definition item_at (l : list item) (i : nat) : result item := match nth_error l i with Some x => Ok x | None => Err IndexError end.
Definition set_event (v : Qc) (x : item) : item := set_idx x (dset "anomaly_event" (Some v) (i_idx x)).
(* event_timeseries[j].data_indexes['anomaly_event'] = v *)
Definition event_at (v : Qc) (l : list item) (j : nat) : result (list item) :=
  do x <- item_at l j; Ok (firstn j l ++ set_event v x :: skipn (S j) l).
(* models/anomaly_detectors.py 98-99, 120-121 *)
Definition mark_range (l : list item) (from n : nat) : result (list item) := foldM (event_at q1) (seq from n) l.

(* models/anomaly_detectors.py 68-105: the item i, and the start of the possible event, if any *)
Definition event_step (thr : Qc) (persistence : Z) (gap : nat) (st : list item * option nat) (i : nat) : result (list item * option nat) :=
  do l <- event_at q0 (fst st) i;
  do x <- item_at l i;
  do v <- anomaly_of x;
  match (if qleb thr v then match snd st with None => Some i | Some s => Some s end else snd st) with
  | None => Ok (l, None)
  | Some s =>
    if qltb v thr then
      do vs <- mapM (fun j => do y <- item_at l j; anomaly_of y) (seq (i - gap) (S i - (i - gap)));
      if existsb (qleb thr) vs then Ok (l, Some s)
      else if Z.ltb (Z.of_nat i - Z.of_nat gap - Z.of_nat s) persistence then Ok (l, None)
      else do l <- mark_range l s (i - gap - s); Ok (l, None)
    else Ok (l, Some s)
  end.
(* models/anomaly_detectors.py 111-115: from the last item down to the one after the start *)
Fixpoint last_anomalous (thr : Qc) (l : list item) (is : list nat) (otherwise : nat) : result nat :=
  match is with
  | [] => Ok otherwise
  | i :: r => do x <- item_at l i; do v <- anomaly_of x; if qleb thr v then Ok i else last_anomalous thr l r otherwise
  end.
(* models/anomaly_detectors.py 107-121 *)
Definition last_event (thr : Qc) (persistence : Z) (l : list item) (start : option nat) : result (list item) :=
  match start with
  | None => Ok l
  | Some s =>
    do b <- last_anomalous thr l (rev (seq (S s) (length l - S s))) (length l);
    if Z.ltb (Z.of_nat b - Z.of_nat s) persistence then Ok l else mark_range l s (S b - s)
  end.
(* models/anomaly_detectors.py 123-125 *)
Definition replace_anomaly (x : item) : result item :=
  match dget "anomaly_event" (i_idx x) with
  | None => Err KeyError
  | Some v => Ok (set_idx x (dset "anomaly" v (ddel "anomaly_event" (i_idx x))))
  end.
Definition mark_items (thr : Qc) (persistence : Z) (gap : nat) (replace : bool) (l : list item) : result (list item) :=
  do st <- foldM (event_step thr persistence gap) (seq 0 (length l)) (l, None);
  do l <- last_event thr persistence (fst st) (snd st);
  if replace then mapM replace_anomaly l else Ok l.
(* models/anomaly_detectors.py 51-128 *)
Definition mark_events (e : env) (thr : Qc) (persistence : Z) (gap : nat) (replace inplace : bool) (s : series) : result series :=
  do s <- (if inplace then Ok s else ts_duplicate e s);
  do l <- mark_items thr persistence gap replace (s_items s);
  Ok (set_items s l).
