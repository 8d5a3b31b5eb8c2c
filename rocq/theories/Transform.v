(* Transform.v -- MODEL of resampling and aggregation (transformations.py 23-761).

   The for loop of the process is a fold on the points, its inner while loop has fuel (OutOfFuel is not
   an exception: the loop is still running).  The points are carried along, because the process attaches
   weights to them, and in one branch changes their data. *)
From Verif Require Export Intervals.

(* propertime: dt == unit.round(dt) and unit.round(dt, how='ceil'), for a datetime given by timezone and
   epoch. *)
Record rounding := mkRounding {
  rd_on : tunit -> string -> Qc -> bool;
  rd_ceil : tunit -> string -> Qc -> Qc }.

Inductive ttarget := TPoints | TSlots.

(* The result of an operation: a number or a dictionary. *)
Inductive opres := ONum (v : Qc) | ODict (d : dict Qc).
(* operations.py 12-62 (or a user-defined function): name, _supports_weights and the call. *)
Record operation := mkOperation { o_name : string; o_weights : bool; o_run : series -> result opres }.

(* The arguments of a transformation: transformations.py 701-717, 733-758 (unit, operations, interpolator)
   and 385-386 (fill_with, force_data_loss). *)
Record tparams := mkTp {
  tp_env : env; tp_cal : cal; tp_round : rounding;
  tp_interp : series -> Qc -> Z -> Z -> result data;
  tp_unit : tunit; tp_target : ttarget; tp_ops : list operation;
  tp_fill : option Qc; tp_force : option Qc }.

(* ---------------- the dense view ---------------- *)

Definition set_weight (x : item) (w : option Qc) : item :=
  mkItem (i_cls x) (i_t x) (i_end x) (i_unit x) (i_tz x) (i_data x) (i_idx x) w.
Definition vp_set (p : vpoint) (x : item) : vpoint := mkVp x (vp_from p) (vp_to p) (vp_interp p).

(* transformations.py 121-126: a point with the default timezone and no indexes *)
Definition gap_point (t : Qc) (d : data) (a b : Qc) : vpoint :=
  mkVp (mkItem CDataTimePoint t t (UPhys q0) "UTC" (Some d) [] None) a b true.

(* transformations.py 88-104: the validity of the point which fills the gap between two points *)
Definition gap_from (F : Qc) (p : vpoint) : Qc := if qltb (vp_to p) F then F else vp_to p.
Definition gap_to (T : Qc) (p : vpoint) : Qc := if qltb T (vp_from p) then T else vp_from p.

(* transformations.py 55-141: iterating a dense view; l are the points from position i, prev the one
   before.  The new points are created at the first iteration and then cached by time (107-109); their
   times are distinct, hence the cache only makes the following iterations give the same objects. *)
Fixpoint dense_rest (ev : Qc -> Z -> Z -> result data) (F T : Qc) (i : nat) (prev : vpoint) (l : list vpoint) : result (list vpoint) :=
  match l with
  | [] => Ok []
  | p :: r =>
    do more <- (if qltb (vp_to prev) (vp_from p) then
                  let a := gap_from F prev in let b := gap_to T p in
                  let t := Qcplus a (qhalf (Qcminus b a)) in
                  do d <- ev t (Z.of_nat i - 1)%Z (Z.of_nat i); Ok [gap_point t d a b]
                else Ok []);
    do rest <- dense_rest ev F T (S i) p r;
    Ok (more ++ p :: rest)
  end.
Definition sub {A} (l : list A) (from to : nat) : list A := firstn (to - from) (skipn from l).
Definition dense_view (ev : Qc -> Z -> Z -> result data) (F T : Qc) (pts : list vpoint) (from to : nat) : result (list vpoint) :=
  match sub pts from to with
  | [] => Ok []
  | p :: r => do rest <- dense_rest ev F T (S from) p r; Ok (p :: rest)
  end.

(* The points of a view, as the operations see them: the labels (156-161) are those of the source series,
   which are the same for all the items. *)
Definition view_series (l : list vpoint) : series :=
  mkSeries (map vp_item l) None None None None
    (match l with [] => None | p :: _ => Some (i_data (vp_item p)) end).

(* The source series with the current state of its points. *)
Definition src_series (s : series) (pts : list vpoint) : series := with_items s (map vp_item pts).

(* ---------------- computing a new item ---------------- *)

(* transformations.py 203-221: the weight of a point (to_t > from_t, or the coverage has raised before) *)
Definition point_weight (F T : Qc) (p : vpoint) : Qc :=
  if qltb (vp_to p) F then q0
  else if qleb T (vp_from p) then q0
  else
    let a := if qleb F (vp_from p) then vp_from p else F in
    let b := if qltb (vp_to p) T then vp_to p else T in
    Qcdiv (Qcminus b a) (Qcminus T F).
Definition weigh (F T : Qc) (p : vpoint) : vpoint := vp_set p (set_weight (vp_item p) (Some (point_weight F T p))).

(* The points of the source in a view (the others are interpolated), put back in place. *)
Definition put_back (pts : list vpoint) (from to : nat) (view : list vpoint) : list vpoint :=
  firstn from pts ++ filter (fun p => negb (vp_interp p)) view ++ skipn to pts.

(* transformations.py 246-248: point.data[data_label] += point.data[data_label] * point.weight, on the
   data object of the point *)
Definition inflate_label (w : Qc) (d : data) (label : string) : result data :=
  do v <- data_item d label;
  match d with
  | DDict m => Ok (DDict (dset label (Qcplus v (Qcmult v w)) m))
  | DList _ => Err TypeError
  end.
Definition inflate (labels : list string) (p : vpoint) : result vpoint :=
  do d <- item_data (vp_item p);
  do d' <- foldM (inflate_label (weight_of (vp_item p))) labels d;
  Ok (vp_set p (set_data (vp_item p) (Some d'))).

(* transformations.py 228-257: the points for the operations which do not support weights, and the
   extended view, with its data changed if there are no points in the slot and no full data loss (the new
   point is all zeros, at half the length of the slot from the epoch). *)
Definition slot_points (ev : Qc -> Z -> Z -> result data) (F T : Qc) (labels : list string) (tz : string)
    (loss : Qc) (pts ext : list vpoint) (first last : option nat) : result (list vpoint * list vpoint) :=
  match first, last with
  | None, None =>
    if qeqb loss q1 then
      match filter vp_interp ext with
      | [p] => Ok (ext, [p])
      | _ => Err ConsistencyException
      end
    else
      do ext' <- mapM (inflate labels) ext;
      let t := qhalf (Qcminus T F) in
      Ok (ext', [mkVp (mkItem CDataTimePoint t t (UPhys q0) tz
                         (Some (DDict (dict_of (map (fun lb => (lb, q0)) labels)))) [] None) t t false])
  | Some f, Some l => do v <- dense_view ev F T pts f (S l); Ok (ext, v)
  | _, _ => Err TypeError
  end.

(* transformations.py 283-303: the data of a slot *)
Definition op_entries (labels : list string) (o : operation) (r : opres) : dict Qc :=
  match r with
  | ODict d => map (fun kv => (fst kv ++ "_" ++ o_name o, snd kv)%string) d
  | ONum v => match labels with lb :: _ => [(lb ++ "_" ++ o_name o, v)%string] | [] => [] end
  end.
Definition slot_data (ops : list operation) (labels : list string) (fill : option Qc) (loss : Qc) (ext view : list vpoint) : result (dict Qc) :=
  match fill with
  | Some v => if qeqb loss q1 && negb (qeqb v q0)
              then Ok (dict_of (flat_map (fun lb => map (fun o => (lb ++ "_" ++ o_name o, v)%string) ops) labels))
              else do rs <- mapM (fun o => do r <- o_run o (view_series (if o_weights o then ext else view)); Ok (op_entries labels o r)) ops;
                   Ok (dict_of (concat rs))
  | None => do rs <- mapM (fun o => do r <- o_run o (view_series (if o_weights o then ext else view)); Ok (op_entries labels o r)) ops;
            Ok (dict_of (concat rs))
  end.

(* datastructures.py 713-736: the names of the indexes, the known ones first and then the others sorted *)
Definition add_names (acc names : list string) : list string :=
  fold_left (fun a k => if str_mem k a then a else a ++ [k]) names acc.
Definition all_indexes (l : list item) : list string :=
  let names := fold_left (fun a x => add_names a (dkeys (i_idx x))) l [] in
  let legacy := ["data_reconstructed"; "data_loss"; "anomaly"; "forecast"]%string in
  filter (fun k => str_mem k names) legacy ++ str_sort (filter (fun k => negb (str_mem k legacy)) names).

(* transformations.py 339-366: the weighted average of an index on the points which have it *)
Definition index_sums (ix : string) (l : list vpoint) : Qc * Qc :=
  fold_left (fun a p => match dget ix (i_idx (vp_item p)) with
                        | Some (Some v) => (Qcplus (fst a) (Qcmult v (weight_of (vp_item p))), Qcplus (snd a) (weight_of (vp_item p)))
                        | _ => a
                        end) l (q0, q0).
Definition index_value (ix : string) (l : list vpoint) : option Qc :=
  let '(tot, w) := index_sums ix l in if qltb q0 w then Some (Qcdiv tot w) else None.
Definition new_indexes (names : list string) (l : list vpoint) (loss : Qc) : dict (option Qc) :=
  fold_left (fun d ix => if String.eqb ix "data_loss" then d else dset ix (index_value ix l) d) names [("data_loss"%string, Some loss)].

(* transformations.py 164-371: _compute_new; gives also the points, as the weights (and the data) of those
   in the extended view are set. *)
Definition compute_new (P : tparams) (s : series) (names : list string) (auto : result Qc) (si : Qc) (force : bool)
    (pts : list vpoint) (F T : Qc) (first last prev : option nat) (next : nat) : result (list vpoint * item) :=
  let tz := match series_tz s with Some z => z | None => "UTC"%string end in
  let ev := fun t pi ni => tp_interp P (src_series s pts) t pi ni in
  do labels <- labels_of (src_series s pts);
  match (match prev with Some i => Some i | None => first end) with
  | None => Err TypeError       (* count + None *)
  | Some from =>
    do ext <- dense_view ev F T pts from (S next);
    do loss <- compute_data_loss ext (match s_res s with Some _ => true | None => false end) force F T (Some si) auto;
    let ext := map (weigh F T) ext in
    let pts := put_back pts from (S next) ext in
    match tp_target P with
    | TPoints =>
      do r <- op_avg (view_series ext);
      do vs <- mapM (fun lb => pick r lb) labels;
      let loss := match tp_force P with Some x => x | None => loss end in
      let t := Qcplus F (qhalf (Qcminus T F)) in
      Ok (pts, mkItem CDataTimePoint t t (UPhys q0) tz (Some (DDict (dict_of (combine labels vs)))) (new_indexes names ext loss) None)
    | TSlots =>
      do v <- slot_points ev F T labels tz loss pts ext first last;
      let '(ext, view) := v in
      let pts := put_back pts from (S next) ext in
      do d <- slot_data (tp_ops P) labels (tp_fill P) loss ext view;
      match d with
      | [] => Err GenericException
      | _ =>
        let loss := match tp_force P with Some x => x | None => loss end in
        Ok (pts, mkItem CDataTimeSlot F T (tp_unit P) tz (Some (DDict d)) (new_indexes names ext loss) None)
      end
    end
  end.

(* ---------------- the process ---------------- *)

(* the variables of the loop: transformations.py 514-521, 526-527 *)
Record tstate := mkSt {
  st_pts : list vpoint; st_start : option Qc; st_end : Qc; st_prev : option nat;
  st_ended : bool; st_first : bool; st_out : series }.

Definition in_slot (pts : list vpoint) (a b : Qc) (i : Z) : result bool :=
  do p <- list_get pts i; Ok (qleb a (i_t (vp_item p)) && qltb (i_t (vp_item p)) b).

(* transformations.py 612-637: first and last point of the slot *)
Definition slot_bounds (pts : list vpoint) (a b : Qc) (prev : option nat) (next : nat) : result (option nat * option nat) :=
  if match prev with Some p => Nat.eqb (next - p) 1 || Nat.eqb (p - next) 1 | None => false end then Ok (None, None)
  else
    do f <- match prev with
            | None => Ok (Some 0)
            | Some p => do y <- in_slot pts a b (Z.of_nat (S p)); Ok (if y then Some (S p) else None)
            end;
    do y <- in_slot pts a b (Z.of_nat next - 1);
    (* series[-1], the last point, if next is 0: it is not before the first one, hence not in the slot *)
    Ok (f, if y then Some (next - 1) else None).

(* transformations.py 648-677: closing the slot [a, st_end) *)
Definition close_slot (P : tparams) (s : series) (names : list string) (auto : result Qc) (si : Qc) (i : nat) (st : tstate) (a : Qc) : result tstate :=
  do fl <- slot_bounds (st_pts st) a (st_end st) (st_prev st) i;
  do r <- compute_new P s names auto si (st_first st) (st_pts st) a (st_end st) (fst fl) (snd fl) (st_prev st) i;
  let '(out, x) := ts_append (tp_env P) (st_out st) (snd r) in
  do _ <- x;
  Ok (mkSt (fst r) (Some a) (st_end st) (st_prev st) (st_ended st) false out).

(* transformations.py 679-690: spinning a new slot *)
Definition spin_slot (P : tparams) (i : nat) (st : tstate) : tstate :=
  let a := st_end st in
  let prev := match i with
              | 0 => st_prev st
              | S j => match nth_error (st_pts st) j with
                       | Some p => if qltb (i_t (vp_item p)) a then Some j else st_prev st
                       | None => st_prev st
                       end
              end in
  mkSt (st_pts st) (Some a) (unit_shift (tp_cal P) (tp_unit P) a 1) prev (st_ended st) (st_first st) (st_out st).

(* transformations.py 584-692: the while loop, for the point at position i with time t *)
Fixpoint spin (fuel : nat) (P : tparams) (s : series) (names : list string) (auto : result Qc) (si : Qc) (i : nat) (t : Qc) (st : tstate) : result tstate :=
  if qleb (st_end st) t then
    match fuel with
    | 0 => Err OutOfFuel
    | S f =>
      do st' <- match st_start st with None => Ok st | Some a => close_slot P s names auto si i st a end;
      spin f P s names auto si i t (spin_slot P i st')
    end
  else Ok st.

(* transformations.py 544-696: the body of the for loop (the validity is attached before the loop to all
   the points: no point is used before its turn) *)
Definition process_point (fuel : nat) (P : tparams) (s : series) (names : list string) (auto : result Qc) (si from to : Qc) (st : tstate) (it : nat * Qc) : result tstate :=
  let '(i, t) := it in
  if qltb t from then Ok (mkSt (st_pts st) (st_start st) (st_end st) (Some i) (st_ended st) (st_first st) (st_out st))
  else if qleb to t && st_ended st then Ok st
  else if qleb (st_end st) t then
    do st' <- spin fuel P s names auto si i t st;
    Ok (mkSt (st_pts st') (st_start st') (st_end st') (st_prev st') (st_ended st' || qleb to t) (st_first st') (st_out st'))
  else Ok st.

(* The start and end arguments: epochs or datetimes. *)
Inductive tlimit := LNum (t : Qc) | LDt (t : Qc) (tz : string).

(* transformations.py 436-446, 474-484: `if from_t` ignores the epoch 0; the limits must be on a boundary
   of the unit. *)
Definition limit_or (P : tparams) (l : option tlimit) (auto : Qc) : result Qc :=
  let check tz t := if rd_on (tp_round P) (tp_unit P) tz t then Ok t else Err ValueError in
  match l with
  | Some (LNum t) => if qeqb t q0 then Ok auto else check "UTC"%string t
  | Some (LDt t tz) => check tz t
  | None => Ok auto
  end.

(* transformations.py 447-470: the automatic start *)
Definition auto_start (P : tparams) (tz : string) (t0 : Qc) : result Qc :=
  match tp_target P with
  | TPoints => do h <- match tp_unit P with UPhys d => Ok (qhalf d) | UCal _ => Err ValueError end;
               Ok (Qcplus (rd_ceil (tp_round P) (tp_unit P) tz (Qcminus t0 h)) h)
  | TSlots => Ok (if rd_on (tp_round P) (tp_unit P) tz t0 then t0 else rd_ceil (tp_round P) (tp_unit P) tz t0)
  end.

(* transformations.py 548-549: every point with the validity of its time *)
Definition attach (rs : list region) (x : item) : result vpoint :=
  match find (fun r => qeqb (r_t r) (i_t x)) rs with
  | Some r => Ok (mkVp x (r_from r) (r_to r) false)
  | None => Err KeyError
  end.

Definition init_state (pts : list vpoint) (from : Qc) : tstate := mkSt pts None from None false true (empty_series None).
Definition indexed (pts : list vpoint) : list (nat * Qc) := combine (seq 0 (length pts)) (map (fun p => i_t (vp_item p)) pts).

(* transformations.py 385-707: process; gives the new series and the points of the source as they are left.
   auto is the auto-detected sampling interval. *)
Definition tprocess (fuel : nat) (P : tparams) (s : series) (start stop : option tlimit) (validity : option Qc) (auto : result Qc)
    : result (series * list item) :=
  match s_items s with
  | [] => Err TypeError          (* issubclass(None, ..) *)
  | x0 :: _ =>
    match i_cls x0 with
    | CDataTimePoint =>
      let tz := match series_tz s with Some z => z | None => "UTC"%string end in
      do af <- auto_start P tz (i_t x0);
      do from <- limit_or P start af;
      do xl <- match last_item (s_items s) with Some x => Ok x | None => Err IndexError end;
      do to <- limit_or P stop (i_t xl);
      do si <- match validity with Some v => Ok v | None => auto end;
      do _ <- unit_seconds (tp_cal P) (tp_unit P) (i_t x0);
      do rs <- validity_regions (s_items s) None None (Some si) auto false;
      do pts <- mapM (attach rs) (s_items s);
      do st <- foldM (process_point fuel P s (all_indexes (s_items s)) auto si from to) (indexed pts) (init_state pts from);
      Ok (st_out st, map vp_item (st_pts st))
    | _ => Err TypeError
    end
  end.

(* ---------------- the two transformations ---------------- *)

Definition linear_interp (s : series) (t : Qc) (pi ni : Z) : result data := linear_evaluate s t (Some pi) (Some ni).

(* transformations.py 701-724 and datastructures.py 1048-1052: Resampler(unit).process(series, ..); calendar
   units are rejected by the constructor *)
Definition resample (fuel : nat) (e : env) (c : cal) (rd : rounding) (u : tunit) (s : series)
    (start stop : option tlimit) (validity : option Qc) (auto : result Qc) : result (series * list item) :=
  match u with
  | UCal _ => Err ValueError
  | UPhys _ => tprocess fuel (mkTp e c rd linear_interp u TPoints [] None None) s start stop validity auto
  end.

(* transformations.py 731-761 and datastructures.py 1042-1046: Aggregator(unit, operations).process(series, ..) *)
Definition aggregate (fuel : nat) (e : env) (c : cal) (rd : rounding) (u : tunit) (ops : list operation) (s : series)
    (start stop : option tlimit) (validity fill force : option Qc) (auto : result Qc) : result (series * list item) :=
  match ops with
  | [] => Err ValueError
  | _ => tprocess fuel (mkTp e c rd linear_interp u TSlots ops fill force) s start stop validity auto
  end.

(* The operations of operations.py usable in an aggregation. *)
Definition dict_values (d : dict (option Qc)) : dict Qc :=
  flat_map (fun kv => match snd kv with Some v => [(fst kv, v)] | None => [] end) d.
Definition agg_avg : operation := mkOperation "avg" true (fun s => do d <- op_avg s; Ok (ODict d)).
Definition agg_sum : operation := mkOperation "sum" false (fun s => do d <- op_sum s; Ok (ODict d)).
Definition agg_min : operation := mkOperation "min" false (fun s => do d <- op_min s; Ok (ODict (dict_values d))).
Definition agg_max : operation := mkOperation "max" false (fun s => do d <- op_max s; Ok (ODict (dict_values d))).
