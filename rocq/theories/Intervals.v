(* Intervals.v -- MODEL of the validity regions, of the coverage and of the data loss
   (utilities.py 592-801), of the sampling interval detection (utilities.py 86-139, 528-532) and of
   the interpolators (interpolators.py 16-124). *)
From Verif Require Export Ops.

Definition qhalf (x : Qc) : Qc := Qcdiv x q2.

(* ---------------- validity regions ---------------- *)

(* An entry of the validity_segments dictionary: point.t -> [from, to].  The times of the points of a
   series are distinct (C01), hence the dictionary has one entry per processed point, in order. *)
Record region := mkRegion { r_t : Qc; r_from : Qc; r_to : Qc }.

(* utilities.py 623-653: the loop on the points; acc are the segments set so far, the last one first
   (the one of prev_point_t). *)
Fixpoint regions_loop (si : Qc) (from to : option Qc) (cut : bool) (acc : list region) (l : list item) : list region :=
  match l with
  | [] => rev acc
  | x :: rest =>
    let f := Qcminus (i_t x) (qhalf si) in
    let t := Qcplus (i_t x) (qhalf si) in
    if match from with Some a => qleb t a | None => false end then regions_loop si from to cut acc rest
    else if match to with Some b => qltb b f | None => false end then rev acc
    else
      let f := if cut then match from with Some a => if qltb f a then a else f | None => f end else f in
      let t := if cut then match to with Some b => if qltb b t then b else t | None => t end else t in
      match acc with
      | p :: acc' =>
        if qltb f (r_to p) then
          let mid := qhalf (Qcplus (r_to p) f) in
          regions_loop si from to cut (mkRegion (i_t x) mid t :: mkRegion (r_t p) (r_from p) mid :: acc') rest
        else regions_loop si from to cut (mkRegion (i_t x) f t :: acc) rest
      | [] => regions_loop si from to cut [mkRegion (i_t x) f t] rest
      end
  end.

(* if not sampling_interval: sampling_interval = series._autodetected_sampling_interval
   (utilities.py 615-616 and 742-743): None and 0 are replaced. *)
Definition interval_or (si : option Qc) (auto : result Qc) : result Qc :=
  match si with
  | Some x => if qeqb x q0 then auto else Ok x
  | None => auto
  end.

(* utilities.py 592-654: _compute_validity_regions; auto is the auto-detected sampling interval. *)
Definition validity_regions (l : list item) (from to si : option Qc) (auto : result Qc) (cut : bool) : result (list region) :=
  if Nat.eqb (length l) 1 && match si with None => true | Some _ => false end then Err ValueError
  else do s <- interval_or si auto; Ok (regions_loop s from to cut [] l).

(* ---------------- coverage and data loss ---------------- *)

(* A point with the validity attached by transformations.py 554-555 (or 124-126 for the points
   interpolated by the dense view, which have _interpolated set). *)
Record vpoint := mkVp { vp_item : item; vp_from : Qc; vp_to : Qc; vp_interp : bool }.

(* utilities.py 688-711: the loop (continue / break) *)
Fixpoint coverage_loop (from to : Qc) (acc : Qc) (l : list vpoint) : Qc :=
  match l with
  | [] => acc
  | p :: r =>
    if qltb (vp_to p) from then coverage_loop from to acc r
    else if qleb to (vp_from p) then acc
    else if vp_interp p then coverage_loop from to acc r
    else
      let a := if qleb from (vp_from p) then vp_from p else from in
      let b := if qltb (vp_to p) to then vp_to p else to in
      coverage_loop from to (Qcplus acc (Qcminus b a)) r
  end.

(* utilities.py 657-719: _compute_coverage (on points which all have the validity attached) *)
Definition coverage (l : list vpoint) (from to : Qc) : result Qc :=
  if qleb to from then Err ValueError
  else match l with
       | [] => Ok q0
       | _ => qdiv (coverage_loop from to q0 l) (Qcminus to from)
       end.

(* utilities.py 758-788: the contribution of the data losses already in the points *)
Definition loss_contribution (si from to : Qc) (p : vpoint) : result Qc :=
  match data_loss (vp_item p) with
  | None => Ok q0
  | Some d =>
    if qeqb d q0 then Ok q0
    else
      let f := Qcminus (i_t (vp_item p)) (qhalf si) in
      let t := Qcplus (i_t (vp_item p)) (qhalf si) in
      if qltb t from then Ok q0
      else if qleb to f then Ok q0
      else
        let c := if qltb f from then qabs (Qcminus from t)
                 else if qleb to t then qabs (Qcminus to f)
                 else si in
        do x <- qdiv c (Qcminus to from); Ok (Qcmult d x)
  end.
Definition previous_losses (si from to : Qc) (l : list vpoint) : result Qc :=
  foldM (fun a p => do c <- loss_contribution si from to p; Ok (Qcplus a c)) l q0.

(* utilities.py 722-801: _compute_data_loss; has_res is (series.resolution is not None), which is
   true also for the string 'variable'. *)
Definition compute_data_loss (l : list vpoint) (has_res force : bool) (from to : Qc) (si : option Qc) (auto : result Qc) : result Qc :=
  do s <- interval_or si auto;
  do c <- coverage l from to;
  do p <- (if has_res || force then previous_losses s from to l else Ok q0);
  Ok (Qcplus (Qcminus q1 c) p).

(* ---------------- sampling interval detection ---------------- *)

(* diffs: distance -> count, in order of first appearance *)
Definition counts := list (Qc * nat).
Fixpoint count_add (d : Qc) (m : counts) : counts :=
  match m with
  | [] => [(d, 1)]
  | (k, n) :: r => if qeqb k d then (k, S n) :: r else (k, n) :: count_add d r
  end.

(* utilities.py 89-98 *)
Fixpoint diffs_of (l : list Qc) : list Qc :=
  match l with
  | a :: (b :: _) as r => Qcminus b a :: diffs_of r
  | _ => []
  end.
Definition count_all (ds : list Qc) : counts := fold_left (fun m d => count_add d m) ds [].

(* utilities.py 528-532 *)
Definition almost_equal (one two : nat) : result bool :=
  do r <- qdiv (qn one) (qn two);
  Ok (qltb (qfrac 19 20) r && qleb r (qfrac 21 20)).

(* Python's round(x) to an integer: half to even *)
Definition qround (x : Qc) : Z :=
  let n := Qnum (this x) in let d := Zpos (Qden (this x)) in
  let f := (n / d)%Z in let r := (n mod d)%Z in
  match Z.compare (2 * r) d with
  | Lt => f
  | Gt => (f + 1)%Z
  | Eq => if Z.even f then f else (f + 1)%Z
  end.

(* utilities.py 102-114: the while loop, with fuel: None if it is still running.  The counter i is
   never incremented, hence the exception at 113-114 is never raised. *)
Fixpoint spread_loop (fuel : nat) (n : nat) (m : counts) : option (result counts) :=
  match almost_equal (length m) n with
  | Err x => Some (Err x)
  | Ok false => Some (Ok m)
  | Ok true => match fuel with
               | 0 => None
               | S f => spread_loop f n (count_all (map (fun kv => qz (qround (fst kv))) m))
               end
  end.

(* utilities.py 116-121: the first with the maximum count *)
Definition most_common (m : counts) : option Qc * nat :=
  fold_left (fun acc kv => if Nat.ltb (snd acc) (snd kv) then (Some (fst kv), snd kv) else acc) m (None, 0).
(* utilities.py 123-130 *)
Definition second_common (best : option Qc) (m : counts) : nat :=
  fold_left (fun acc kv => if match best with Some d => qeqb (fst kv) d | None => false end then acc
                           else if Nat.ltb acc (snd kv) then snd kv else acc) m 0.

(* utilities.py 86-139: detect_sampling_interval(series, confidence=True); None = never returns with
   this fuel; the interval is None if there are no distances. *)
Definition detect_interval (fuel : nat) (l : list item) : option (result (option Qc * Qc)) :=
  match spread_loop fuel (length l) (count_all (diffs_of (map i_t l))) with
  | None => None
  | Some (Err x) => Some (Err x)
  | Some (Ok m) =>
    let b := most_common m in
    if Nat.eqb (length m) 1 then Some (Ok (fst b, q1))
    else Some (do r <- qdiv (qn (second_common (fst b) m)) (qn (snd b)); Ok (fst b, Qcminus q1 r))
  end.

(* ---------------- interpolators ---------------- *)

(* point.data[label] with label a string: lists raise TypeError *)
Definition data_item (d : data) (label : string) : result Qc :=
  match d with
  | DDict d => match dget label d with Some v => Ok v | None => Err KeyError end
  | DList _ => Err TypeError
  end.
Definition data_at (x : item) (label : string) : result Qc := do d <- item_data x; data_item d label.

(* self.series.data_labels(), iterated: None (empty series) raises TypeError *)
Definition labels_of (s : series) : result (list string) :=
  do o <- ts_data_labels s; match o with Some ls => Ok ls | None => Err TypeError end.

(* interpolators.py 69-77 *)
Definition linear_value (prev next : item) (at_ : Qc) (label : string) : result Qc :=
  do b <- data_at next label; do a <- data_at prev label;
  do ratio <- qdiv (Qcminus b a) (Qcminus (i_t next) (i_t prev));
  Ok (Qcplus a (Qcmult (Qcminus at_ (i_t prev)) ratio)).
(* interpolators.py 121-122 *)
Definition uniform_value (prev next : item) (at_ : Qc) (label : string) : result Qc :=
  do a <- data_at prev label; do b <- data_at next label;
  Ok (Qcplus a (Qcdiv (Qcminus b a) q2)).

(* interpolators.py 45-79 and 115-124: the data for the given positions (with list data the values
   raise TypeError, hence the result is always a dictionary) *)
Definition interp_data (value : item -> item -> Qc -> string -> result Qc) (s : series) (at_ : Qc) (pi ni : Z) : result data :=
  do p <- ts_get_i s pi; do n <- ts_get_i s ni;
  do ls <- labels_of s;
  do vs <- mapM (value p n at_) ls;
  Ok (DDict (dict_of (combine ls vs))).

(* interpolators.py 34-38: position of the first item after *)
Fixpoint first_after (at_ : Qc) (i : nat) (l : list item) : option nat :=
  match l with
  | [] => None
  | x :: r => if qltb at_ (i_t x) then Some i else first_after at_ (S i) r
  end.

(* if not series[prev_i].t < at < series[next_i].t: raise ValueError *)
Definition check_between (s : series) (at_ : Qc) (pi ni : Z) : result unit :=
  do p <- ts_get_i s pi;
  if qltb (i_t p) at_ then do n <- ts_get_i s ni; if qltb at_ (i_t n) then Ok tt else Err ValueError
  else Err ValueError.

(* interpolators.py 23-80: LinearInterpolator.evaluate *)
Definition linear_evaluate (s : series) (at_ : Qc) (pi ni : option Z) : result data :=
  match pi, ni with
  | Some _, None | None, Some _ => Err ValueError
  | None, None => match first_after at_ 0 (s_items s) with
                  | None => Err ValueError
                  | Some i => interp_data linear_value s at_ (Z.of_nat i - 1) (Z.of_nat i)
                  end
  | Some p, Some n => do _ <- check_between s at_ p n; interp_data linear_value s at_ p n
  end.

(* interpolators.py 90-124: UniformInterpolator.evaluate: positions equal to 0 count as missing
   (`if prev_i`, `if not prev_i`), and the search stops after the first item (106). *)
Definition zero_or_none (i : option Z) : bool := match i with Some z => Z.eqb z 0 | None => true end.
Definition uniform_evaluate (s : series) (at_ : Qc) (pi ni : option Z) : result data :=
  let absent i := match i with None => true | Some _ => false end in
  if negb (zero_or_none pi) && absent ni then Err ValueError
  else if negb (zero_or_none ni) && absent pi then Err ValueError
  else if zero_or_none pi then
    match match s_items s with
          | x :: _ => if qltb at_ (i_t x) then (Some (-1)%Z, Some 0%Z) else (pi, ni)
          | [] => (pi, ni)
          end with
    | (_, None) => Err ValueError
    | (None, Some _) => Err AttributeError    (* series[None], if only next_i=0 is given *)
    | (Some p, Some n) => interp_data uniform_value s at_ p n
    end
  else match pi, ni with
       | Some p, Some n => do _ <- check_between s at_ p n; interp_data uniform_value s at_ p n
       | _, _ => Err ValueError
       end.
