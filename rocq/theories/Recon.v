(* Recon.v -- MODEL of the periodicity index (utilities.py 866-913) and of the reconstructors
   (models/reconstructors.py 33-123, 310-465).

   The checks which the decorators do before apply and predict are in Models.v; those done again by the
   predict called from apply are the same ones, on a series with the same resolution and labels, and are
   left out.  The time series has a single dimension. *)
From Verif Require Export Models.

(* ---------------- periodicity index ---------------- *)

(* Python's % on integers *)
Definition pmod (a p : Z) : result Z := if Z.eqb p 0 then Err ZeroDivisionError else Ok (Z.modulo a p).

(* utilities.py 871-881: the resolution in seconds for the item; a variable or missing one makes the
   division raise *)
Definition resolution_s (c : cal) (r : option res) (t : Qc) : result Qc :=
  match r with
  | Some (RUnit u) => unit_seconds c u t
  | Some RVar | None => Err TypeError
  end.

(* utilities.py 866-913: _get_periodicity_index of an item with the given time and timezone; dst gives the
   seconds of item.dt.dst() (a negative value, or a day or more, has days <> 0). *)
Definition periodicity_index (c : cal) (dst : string -> Qc -> Z) (tz : string) (t : Qc) (r : option res) (p : Z) (dst_affected : bool) : result Z :=
  do rs <- resolution_s c r t;
  let off := if dst_affected then dst tz t else 0%Z in
  if Z.eqb off 0 then do q <- qdiv t rs; pmod (qtrunc q) p
  else if (Z.ltb off 0 || Z.leb 86400 off)%bool then Err GenericException
  else if qltb (qz 3600) rs then Err GenericException
  else do q <- qdiv (Qcplus t (qz off)) rs; pmod (qtrunc q) p.

(* dictionaries with integer keys *)
Fixpoint zget {V} (k : Z) (d : list (Z * V)) : option V :=
  match d with
  | [] => None
  | (x, v) :: r => if Z.eqb k x then Some v else zget k r
  end.
Fixpoint zset {V} (k : Z) (v : V) (d : list (Z * V)) : list (Z * V) :=
  match d with
  | [] => [(k, v)]
  | (x, w) :: r => if Z.eqb k x then (x, v) :: r else (x, w) :: zset k v r
  end.

(* ---------------- apply ---------------- *)

(* What a reconstructor predicts: a dictionary of lists, or a list of dictionaries. *)
Inductive pdata := PDict (d : dict (list Qc)) | PList (l : list data).

Fixpoint replace_nth {A} (i : nat) (x : A) (l : list A) : list A :=
  match l, i with
  | [], _ => []
  | _ :: r, O => x :: r
  | y :: r, S i => y :: replace_nth i x r
  end.
Definition set_nth (s : series) (i : nat) (x : item) : series := set_items s (replace_nth i x (s_items s)).

(* item.data_indexes['data_reconstructed'] = v *)
Definition flag (v : Qc) (x : item) : item := set_idx x (dset "data_reconstructed" (Some v) (i_idx x)).

(* models/reconstructors.py 101-111: the data for the k-th item of the gap *)
Definition gap_data (s : series) (pd : pdata) (k : nat) : result data :=
  match pd with
  | PDict d =>
    do ls <- labels_of s;
    do vs <- mapM (fun lb => match dget lb d with
                             | None => Err KeyError
                             | Some l => match nth_error l k with Some v => Ok v | None => Err IndexError end
                             end) ls;
    Ok (DDict (dict_of (combine ls vs)))
  | PList l => match nth_error l k with Some d => Ok d | None => Err IndexError end
  end.

(* A for loop on a state, which an exception leaves as it is at that point. *)
Fixpoint forM {St A} (f : St -> A -> St * result unit) (l : list A) (s : St) : St * result unit :=
  match l with
  | [] => (s, Ok tt)
  | x :: r => match f s x with
              | (s', Ok _) => forM f r s'
              | (s', Err e) => (s', Err e)
              end
  end.

(* models/reconstructors.py 84-123: _reconstruct, in place, from from_i to to_i included *)
Definition reconstruct (predict : series -> nat -> nat -> result pdata) (s : series) (from_i to_i : nat) : series * result unit :=
  match predict s from_i to_i with
  | Err e => (s, Err e)
  | Ok pd =>
    forM (fun s j => match gap_data s pd (j - from_i) with
                     | Err e => (s, Err e)
                     | Ok d => match nth_error (s_items s) j with
                               | None => (s, Err IndexError)
                               | Some x => (set_nth s j (flag q1 (set_data x (Some d))), Ok tt)
                               end
                     end) (seq from_i (S to_i - from_i)) s
  end.

(* models/reconstructors.py 56: if the item is to be reconstructed (items without data have no data loss) *)
Definition to_reconstruct (thr : Qc) (x : item) : result bool :=
  match i_data x with
  | None => Err AttributeError
  | Some _ => Ok (match data_loss x with Some l => qleb thr l | None => false end)
  end.

(* models/reconstructors.py 52-72: the loop on the items; gap is gap_start_i *)
Fixpoint rec_loop (predict : series -> nat -> nat -> result pdata) (thr : Qc) (is : list nat) (gap : option nat) (s : series) : series * result (option nat) :=
  match is with
  | [] => (s, Ok gap)
  | i :: r =>
    match nth_error (s_items s) i with
    | None => (s, Ok gap)     (* end of the iteration *)
    | Some x =>
      match to_reconstruct thr x with
      | Err e => (s, Err e)
      | Ok true => rec_loop predict thr r (match gap with None => Some i | Some g => Some g end) s
      | Ok false =>
        match gap with
        | None => rec_loop predict thr r None (set_nth s i (flag q0 x))
        | Some g => match reconstruct predict s g (i - 1) with
                    | (s', Err e) => (s', Err e)
                    | (s', Ok _) => match nth_error (s_items s') i with
                                    | None => (s', Ok None)
                                    | Some y => rec_loop predict thr r None (set_nth s' i (flag q0 y))
                                    end
                    end
        end
      end
    end
  end.

(* models/reconstructors.py 44-82: apply(series, data_loss_threshold, inplace=True); 75-77: the last gap *)
Definition rec_apply_inplace (predict : series -> nat -> nat -> result pdata) (thr : Qc) (s : series) : series * result unit :=
  let n := length (s_items s) in
  match rec_loop predict thr (seq 0 n) None s with
  | (s', Err e) => (s', Err e)
  | (s', Ok None) => (s', Ok tt)
  | (s', Ok (Some g)) => reconstruct predict s' g (n - 1)
  end.
(* the same with inplace=False: on a copy, which is returned *)
Definition rec_apply (e : env) (predict : series -> nat -> nat -> result pdata) (thr : Qc) (s : series) : result series :=
  do c <- ts_duplicate e s;
  let '(s', r) := rec_apply_inplace predict thr c in do _ <- r; Ok s'.

(* ---------------- linear interpolation ---------------- *)

(* models/reconstructors.py 334-337 and 436-439: the window of one item before and after the gap *)
Definition check_window (s : series) (from_i to_i : nat) : result unit :=
  if Nat.ltb from_i 1 then Err ValueError
  else if Nat.ltb (length (s_items s) - 1) (to_i + 1) then Err ValueError
  else Ok tt.

(* models/reconstructors.py 330-355 *)
Definition linear_predict (s : series) (from_i to_i : nat) : result pdata :=
  do _ <- check_window s from_i to_i;
  do l <- mapM (fun i => do x <- ts_get_i s (Z.of_nat i);
                         linear_evaluate s (i_t x) (Some (Z.of_nat from_i - 1)%Z) (Some (Z.of_nat to_i + 1)%Z))
               (seq from_i (S to_i - from_i));
  Ok (PList l).

(* ---------------- periodic averages ---------------- *)

(* models/reconstructors.py 412-413, models/forecasters.py 505-506: items left out of the averages *)
Definition left_out (limit : option Qc) (x : item) : result bool :=
  match limit with
  | None => Ok false
  | Some l => match i_data x with
              | None => Err AttributeError
              | Some _ => match dget "data_loss" (i_idx x) with
                          | None => Ok false
                          | Some None => Err TypeError
                          | Some (Some v) => Ok (qleb l v)
                          end
              end
  end.

(* models/reconstructors.py 408-422, models/forecasters.py 501-515: sums and totals by periodicity index.
   One dictionary holds both: they have the same keys. *)
Definition add_to_sums (index : item -> result Z) (limit : option Qc) (label : string) (acc : list (Z * (Qc * nat))) (x : item) : result (list (Z * (Qc * nat))) :=
  do out <- left_out limit x;
  if out then Ok acc
  else do k <- index x;
       do v <- data_at x label;
       Ok (match zget k acc with
           | None => zset k (v, 1) acc
           | Some (t, n) => zset k (Qcplus t v, S n) acc
           end).
Definition period_sums (index : item -> result Z) (limit : option Qc) (label : string) (l : list item) : result (list (Z * (Qc * nat))) :=
  foldM (add_to_sums index limit label) l [].
(* models/reconstructors.py 424-427, models/forecasters.py 519-522 *)
Definition averages_of (sums : list (Z * (Qc * nat))) : list (Z * Qc) :=
  map (fun kv => (fst kv, Qcdiv (fst (snd kv)) (qn (snd (snd kv))))) sums.

(* models/reconstructors.py 404-405, 427: the parameters of a PeriodicAverageReconstructor *)
Record pa_params := mkPa { pa_period : Z; pa_dst : bool; pa_averages : list (Z * Qc) }.

(* models/reconstructors.py 371-430; periodicity None: 'auto', with the given result of the detection *)
Definition pa_fit (c : cal) (dst : string -> Qc -> Z) (auto : result Z) (s : series) (periodicity : option Z) (dst_affected : bool)
    (offset_method : string) (limit : option Qc) : result pa_params :=
  if negb (String.eqb offset_method "average" || String.eqb offset_method "extremes") then Err GenericException
  else
    do ls <- labels_of s;
    match ls with
    | _ :: _ :: _ => Err NotImplementedError
    | [] => Err UnboundLocalError        (* sums, if there are no labels *)
    | [lb] =>
      do p <- match periodicity with Some p => Ok p | None => auto end;
      do sums <- period_sums (fun x => periodicity_index c dst (i_tz x) (i_t x) (resolution s) p dst_affected) limit lb (s_items s);
      Ok (mkPa p dst_affected (averages_of sums))
    end.

(* models/reconstructors.py 432-465: predict, looking up the averages with avg *)
Definition average_at (c : cal) (dst : string -> Qc -> Z) (s : series) (p : Z) (dst_affected : bool) (avg : Z -> option Qc) (x : item) : result Qc :=
  do k <- periodicity_index c dst (i_tz x) (i_t x) (resolution s) p dst_affected;
  match avg k with Some v => Ok v | None => Err KeyError end.
Definition pa_predict_with (c : cal) (dst : string -> Qc -> Z) (p : Z) (dst_affected : bool) (avg : Z -> option Qc) (s : series) (from_i to_i : nat) : result pdata :=
  do _ <- check_window s from_i to_i;
  do ls <- labels_of s;
  match ls with
  | [] => Err IndexError
  | lb :: _ =>
    do diffs <- foldM (fun acc j => do x <- ts_get_i s j;
                                    do v <- data_at x lb;
                                    do a <- average_at c dst s p dst_affected avg x;
                                    Ok (Qcplus acc (Qcminus v a)))
                      [(Z.of_nat from_i - 1)%Z; (Z.of_nat to_i + 1)%Z] q0;
    do vs <- mapM (fun j => do x <- ts_get_i s (Z.of_nat j);
                            do a <- average_at c dst s p dst_affected avg x;
                            Ok (Qcplus a (Qcdiv diffs q2)))
                  (seq from_i (S to_i - from_i));
    Ok (PDict [(lb, vs)])
  end.
Definition pa_predict (c : cal) (dst : string -> Qc -> Z) (m : pa_params) : series -> nat -> nat -> result pdata :=
  pa_predict_with c dst (pa_period m) (pa_dst m) (fun k => zget k (pa_averages m)).
