(* Forecast.v -- MODEL of the forecasters (models/forecasters.py 85-193, 450-587).

   The checks which the decorators do before apply and predict are in Models.v; those done again by the
   predict called from forecast can be part of `predict`, which is arbitrary (but does not change the
   series). *)
From Verif Require Export Recon.

(* ---------------- forecast ---------------- *)

(* What a forecaster predicts: one step, or a list of steps. *)
Inductive fdata := FOne (d : data) | FList (l : list data).

(* number + TimeUnit (units.py 152-168 and propertime): for calendar units it is left to the given function *)
Definition number_plus (nadd : string -> Qc -> result Qc) (t : Qc) (r : option res) : result Qc :=
  match r with
  | Some (RUnit (UPhys s)) => Ok (Qcplus t s)
  | Some (RUnit (UCal n)) => nadd n t
  | Some RVar | None => Err TypeError
  end.

(* models/forecasters.py 110-119, 125-133: the item after `last`.  DataTimeSlot(data_loss=None) sets the
   index to None (datastructures.py 509-515); the class of the first item decides if slots or points.
   A slot without a unit raises, as there is no end (datastructures.py 333: None.coordinates). *)
Definition next_of (c : cal) (nadd : string -> Qc -> result Qc) (s : series) (r : option res) (first last : item) (d : data) : result item :=
  if is_slot first then
    match r with
    | Some (RUnit u) => Ok (mkItem CDataTimeSlot (i_end last) (unit_shift c u (i_end last) 1) u (i_tz last) (Some d) [("data_loss"%string, None)] None)
    | Some RVar => Err TypeError
    | None => Err AttributeError
    end
  else
    do t <- number_plus nadd (i_t last) r;
    Ok (mkItem CDataTimePoint t t (UPhys q0) (match series_tz s with Some z => z | None => "UTC"%string end) (Some d) [] None).

(* models/forecasters.py 106-121: one item after the other *)
Fixpoint next_items (c : cal) (nadd : string -> Qc -> result Qc) (s : series) (first last : item) (ds : list data) : result (list item) :=
  match ds with
  | [] => Ok []
  | d :: r => do x <- next_of c nadd s (resolution s) first last d;
              do xs <- next_items c nadd s first x r;
              Ok (x :: xs)
  end.

(* dict.update: the predicted data is updated with the context data; lists have no update *)
Definition update_data (d : data) (ctx : dict Qc) : result data :=
  match d with
  | DDict m => Ok (DDict (fold_left (fun m kv => dset (fst kv) (snd kv) m) ctx m))
  | DList _ => Err AttributeError
  end.

(* A forecaster: the labels it is fitted to (data['target_data_labels'], if set and not empty), the resolution
   it was fitted on (data['resolution']; None: no such key), and its predict.  The context is None if not
   given or empty. *)
Record forecaster := mkForecaster {
  fc_targets : option (list string);
  fc_res : option (option res);
  fc_predict : series -> nat -> option (dict Qc) -> result fdata }.

(* models/forecasters.py 92-94, 141-143 *)
Definition check_targets (F : forecaster) (s : series) (ctx : option (dict Qc)) : result unit :=
  match fc_targets F with
  | None => Ok tt
  | Some t => do ls <- labels_of s;
              if same_set t ls then Ok tt
              else match ctx with None => Err ValueError | Some _ => Ok tt end
  end.

(* The result of forecast: one item or a list of them. *)
Inductive fitems := IOne (x : item) | IList (l : list item).

(* models/forecasters.py 85-135 *)
Definition forecast (c : cal) (nadd : string -> Qc -> result Qc) (F : forecaster) (s : series) (steps : nat) (ctx : option (dict Qc)) : result fitems :=
  do _ <- check_targets F s ctx;
  do pd <- fc_predict F s steps ctx;
  do last <- ts_get_i s (-1);
  match pd with
  | FList ds =>
    match ctx with
    | Some _ => Err NotImplementedError
    | None => match ds with
              | [] => Ok (IList [])
              | _ => do first <- ts_get_i s 0;
                     do l <- next_items c nadd s first last ds;
                     Ok (IList l)
              end
    end
  | FOne d =>
    do d <- match ctx with Some k => update_data d k | None => Ok d end;
    do first <- ts_get_i s 0;
    (* points are placed with the resolution of the model, slots with the one of the series *)
    do r <- (if is_slot first then Ok (resolution s) else match fc_res F with Some r => Ok r | None => Err KeyError end);
    do x <- next_of c nadd s r first last d;
    Ok (IOne x)
  end.

(* ---------------- apply ---------------- *)

(* item.data_indexes['forecast'] = v *)
Definition mark (v : Qc) (x : item) : item := set_idx x (dset "forecast" (Some v) (i_idx x)).
(* models/forecasters.py 150-152: only the items with data have indexes *)
Fixpoint mark_all (l : list item) : list item * result unit :=
  match l with
  | [] => ([], Ok tt)
  | x :: r => match i_data x with
              | None => (x :: r, Err AttributeError)
              | Some _ => let '(m, o) := mark_all r in (mark q0 x :: m, o)
              end
  end.

(* models/forecasters.py 164-168 *)
Definition append_all (e : env) (s : series) (l : list item) : series * result unit :=
  forM (fun s x => ts_append e s (mark q1 x)) l s.

(* models/forecasters.py 172-184: one step at a time; the result must be a single item (a list has no indexes) *)
Definition one_step (e : env) (c : cal) (nadd : string -> Qc -> result Qc) (F : forecaster) (ctx : option (dict Qc)) (s : series) : series * result unit :=
  match forecast c nadd F s 1 ctx with
  | Err x => (s, Err x)
  | Ok (IList _) => (s, Err AttributeError)
  | Ok (IOne x) => ts_append e s (mark q1 x)
  end.

(* models/forecasters.py 137-193: apply(series, steps, inplace=True, context_data) *)
Definition fc_apply_inplace (e : env) (c : cal) (nadd : string -> Qc -> result Qc) (F : forecaster) (s : series) (steps : nat) (ctx : option (dict Qc)) : series * result unit :=
  match check_targets F s ctx with
  | Err x => (s, Err x)
  | Ok _ =>
    let n := length (s_items s) in
    let '(l, o) := mark_all (s_items s) in
    let s := set_items s l in
    match o with
    | Err x => (s, Err x)
    | Ok _ =>
      let '(s, o) :=
        match (match forecast c nadd F s steps ctx with
               | Err x => (s, Err x)
               | Ok (IOne x) => ts_append e s (mark q1 x)
               | Ok (IList l) => append_all e s l
               end) with
        | (s, Err NotImplementedError) => forM (fun s _ => one_step e c nadd F ctx s) (seq 0 steps) s
        | r => r
        end in
      match o with
      | Err x => (s, Err x)
      | Ok _ => if Nat.eqb (n + steps) (length (s_items s)) then (s, Ok tt) else (s, Err ValueError)
      end
    end
  end.
(* the same with inplace=False: on a copy, which is returned (145-146, 190-191) *)
Definition fc_apply (e : env) (c : cal) (nadd : string -> Qc -> result Qc) (F : forecaster) (s : series) (steps : nat) (ctx : option (dict Qc)) : result series :=
  do _ <- check_targets F s ctx;
  do k <- ts_duplicate e s;
  let '(s', r) := fc_apply_inplace e c nadd F k steps ctx in do _ <- r; Ok s'.

(* ---------------- periodic averages ---------------- *)

(* The parameters of a PeriodicAverageForecaster: by label, the periodicity, the window and the averages. *)
Record pf_params := mkPf { pf_labels : dict (Z * Z * list (Z * Qc)); pf_window : Z; pf_dst : bool }.

(* models/forecasters.py 487-523: the loop on the labels.  If the periodicity is to be detected, it is for the
   first label only.  With an explicit window, `processed` is never assigned. *)
Fixpoint pf_fit_labels (c : cal) (dst : string -> Qc -> Z) (detect : string -> result Z) (s : series) (window : option Z) (dst_affected : bool) (limit : option Qc)
    (periodicity : option Z) (ls : list string) : result (dict (Z * Z * list (Z * Qc))) :=
  match ls with
  | [] => Ok []
  | lb :: r =>
    do p <- match periodicity with Some p => Ok p | None => detect lb end;
    match window with
    | Some _ => Err UnboundLocalError
    | None =>
      do sums <- period_sums (fun x => periodicity_index c dst (i_tz x) (i_t x) (resolution s) p dst_affected) limit lb (s_items s);
      match sums with
      | [] => Err ValueError
      | _ => do ps <- pf_fit_labels c dst detect s window dst_affected limit (Some p) r;
             Ok ((lb, (p, p, averages_of sums)) :: ps)
      end
    end
  end.
(* models/forecasters.py 472-526; max of an empty list raises *)
Definition pf_fit (c : cal) (dst : string -> Qc -> Z) (detect : string -> result Z) (s : series) (window periodicity : option Z) (dst_affected : bool) (limit : option Qc) : result pf_params :=
  do ls <- labels_of s;
  do ps <- pf_fit_labels c dst detect s window dst_affected limit periodicity ls;
  match map (fun kv => snd (fst (snd kv))) ps with
  | [] => Err ValueError
  | w :: ws => Ok (mkPf ps (fold_left Z.max ws w) dst_affected)
  end.

(* models/forecasters.py 546-556: the instant of the (k+1)-th step and its timezone.  as_seconds() without a
   starting point fails on calendar units. *)
Fixpoint slot_step (c : cal) (u : tunit) (t : Qc) (k : nat) : Qc :=
  match k with O => t | S j => unit_shift c u (slot_step c u t j) 1 end.
Definition step_time (c : cal) (s : series) (first last : item) (k : nat) : result Qc :=
  if is_slot first then
    match k, resolution s with
    | O, _ => Ok (i_end last)
    | _, Some (RUnit u) => Ok (slot_step c u (i_end last) k)
    | _, _ => Err TypeError
    end
  else match resolution s with
       | Some (RUnit (UPhys d)) => Ok (Qcplus (i_t last) (Qcmult d (qn (S k))))
       | Some (RUnit (UCal _)) => Err ValueError
       | _ => Err AttributeError
       end.

(* models/forecasters.py 562-574: the offset of a label, from the window *)
Definition pf_offset (c : cal) (dst : string -> Qc -> Z) (s : series) (da : bool) (lb : string) (p w : Z) (avg : Z -> option Qc) : result Qc :=
  let n := Z.of_nat (length (s_items s)) in
  do diffs <- foldM (fun acc j => do x <- ts_get_i s (n - 1 - w + Z.of_nat j)%Z;
                                  do v <- data_at x lb;
                                  do a <- average_at c dst s p da avg x;
                                  Ok (Qcplus acc (Qcminus v a))) (seq 0 (Z.to_nat w)) q0;
  if Z.leb w 0 then Err UnboundLocalError      (* j is never assigned *)
  else qdiv diffs (qz (w - 1)).

(* models/forecasters.py 529-587, for a fitted model with the given data labels *)
Definition pf_predict (c : cal) (dst : string -> Qc -> Z) (m : pf_params) (labels : list string) (s : series) (steps : nat) : result fdata :=
  if Z.ltb (Z.of_nat (length (s_items s))) (pf_window m) then Err ValueError
  else
    do last <- ts_get_i s (-1);
    do l <- mapM (fun k =>
      do first <- ts_get_i s 0;
      do t <- step_time c s first last k;
      do vs <- mapM (fun lb =>
        match dget lb (pf_labels m) with
        | None => Err KeyError
        | Some (p, w, avgs) =>
          do off <- pf_offset c dst s (pf_dst m) lb p w (fun k => zget k avgs);
          do i <- periodicity_index c dst (i_tz last) t (resolution s) p (pf_dst m);
          match zget i avgs with Some a => Ok (Qcplus a off) | None => Err KeyError end
        end) labels;
      Ok (DDict (dict_of (combine labels vs)))) (seq 0 steps);
    Ok (FList l).
(* the forecaster, for use with apply; context data are refused (models/base.py 234-235) *)
Definition pf_forecaster (c : cal) (dst : string -> Qc -> Z) (m : pf_params) (labels : list string) (r : option res) : forecaster :=
  mkForecaster None (Some r) (fun s steps ctx => match ctx with Some _ => Err ValueError | None => pf_predict c dst m labels s steps end).
