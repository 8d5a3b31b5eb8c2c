(* Make.v -- MODEL of the making of points and slots, and of how they compare (datastructures.py 27-174, 187-278, 304-473, 489-597).

   Simplifications: coordinates are numbers (strings which float() accepts are not modelled), timezones are their names, and a datetime is what propertime's
   s_from_dt makes of it with the name of its timezone, if any. *)
From Verif Require Export Ops Lists.

(* An argument where a coordinate is expected: a number, an item, something else. *)
Inductive parg := PNum (t : Qc) | PItem (x : item) | PJunk.
(* A datetime: its epoch (s_from_dt may raise) and its timezone. *)
Record ddate := mkDate { d_epoch : result Qc; d_tz : option string }.
(* TimePoint( *args, t=, dt=, tz=, others ) *)
Record pargs := mkPargs { pa_args : list parg; pa_t : option parg; pa_dt : option ddate; pa_tz : option string; pa_other : bool }.

(* 99-101: the timezone, if not empty, through timezonize *)
Definition given_tz (zone : string -> result string) (tz : option string) : result (option string) :=
  match tz with
  | None => Ok None
  | Some z => if String.eqb z "" then Ok None else do z' <- zone z; Ok (Some z')
  end.
(* 104-131: keywords first, then arguments; with neither, or with unknown keywords only, t is not bound *)
Definition point_time (a : pargs) (tz : option string) : result (parg * option string) :=
  match pa_t a, pa_dt a with
  | Some t, _ => Ok (t, tz)
  | None, Some d =>
    do t <- d_epoch d;
    Ok (PNum t, match tz with
                | Some z => Some z
                | None => match d_tz d with Some z => if String.eqb z "UTC" then None else Some z | None => None end
                end)
  | None, None =>
    if pa_other a then Err UnboundLocalError
    else match pa_args a with
         | [] => Err UnboundLocalError
         | [PItem x] => if is_point x then Ok (PNum (i_t x), Some (i_tz x)) else Ok (PItem x, tz)
         | [t] => Ok (t, tz)
         | _ => Err GenericException
         end
  end.
(* 96-142 and 35-45: the time and the timezone of the point (UTC if none, 156-162) *)
Definition new_time_point (zone : string -> result string) (a : pargs) : result (Qc * string) :=
  do tz0 <- given_tz zone (pa_tz a);
  do (t, tz) <- point_time a tz0;
  match t with
  | PNum q => Ok (q, match tz with Some z => z | None => "UTC"%string end)
  | _ => Err GenericException
  end.
Definition point_at (t : Qc) (tz : string) : item := mkItem CTimePoint t t (UPhys q0) tz None [] None.

(* Where an item or a unit is expected. *)
Inductive sarg := SNone | SItem (x : item) | SJunk.
Inductive uarg := UNone | UUnit (u : tunit) | UJunk.
(* TimeSlot(start, end, unit, t=, dt=, tz=): other keywords are ignored *)
Record sargs := mkSargs { sa_start : sarg; sa_end : sarg; sa_unit : uarg; sa_t : option parg; sa_dt : option ddate; sa_tz : option string }.

(* isinstance(x, TimePoint) *)
Definition time_point_arg (x : sarg) : option item := match x with SItem x => if is_point x then Some x else None | _ => None end.
(* x.tz, of time points and time slots *)
Definition arg_tz (x : sarg) : result string := match x with SItem x => Ok (i_tz x) | _ => Err AttributeError end.
Definition truthy_arg (x : sarg) : bool := match x with SNone => false | _ => true end.

(* 407-428 and 316-341 *)
Definition new_time_slot (zone : string -> result string) (c : cal) (a : sargs) : result item :=
  (* 415-418: t, and then dt *)
  do start <- match sa_t a with
              | Some t => do (q, z) <- new_time_point zone (mkPargs [] (Some t) None (sa_tz a) false); Ok (SItem (point_at q z))
              | None => Ok (sa_start a)
              end;
  do start <- match sa_dt a with
              | Some d => do (q, z) <- new_time_point zone (mkPargs [] None (Some d) (sa_tz a) false); Ok (SItem (point_at q z))
              | None => Ok start
              end;
  (* 421-423 *)
  do _ <- (if (truthy_arg start && truthy_arg (sa_end a))%bool
           then do z <- arg_tz start; do z' <- arg_tz (sa_end a); if String.eqb z z' then Ok tt else Err ValueError
           else Ok tt);
  (* 318-325 *)
  match time_point_arg start with
  | None => Err TypeError
  | Some p =>
    if (truthy_arg (sa_end a) && match time_point_arg (sa_end a) with None => true | Some _ => false end)%bool then Err TypeError
    else match sa_unit a with
    | UJunk => Err TypeError
    | _ =>
      (* 327-335 *)
      do e <- match sa_end a, sa_unit a with
              | SNone, UUnit u => Ok (unit_shift c u (i_t p) 1)
              | SItem q, _ => do same <- item_eq p q; if same then Err ValueError else Ok (i_t q)
              | _, _ => Err AttributeError
              end;
      (* 337-341, 433 and 452-460 *)
      Ok (mkItem CTimeSlot (i_t p) e (match sa_unit a with UUnit u => u | _ => UPhys (e - i_t p)%Qc end) (i_tz p) None [] None)
    end
  end.

(* data_indexes: absent, None, a dictionary, something else *)
Inductive iarg := INone | IDict (d : dict (option Qc)) | IJunk.
(* 187-221, 489-523: the data and the indexes of the item, and the dictionary of the caller (which is the same object) afterwards *)
Definition new_data (d : option data) (ix : iarg) (loss : option (option Qc)) : result (data * dict (option Qc) * option (dict (option Qc))) :=
  match d with
  | None => Err GenericException
  | Some d =>
    match ix with
    | IJunk => Err ValueError
    | _ =>
      let given := match ix with IDict x => x | _ => [] end in
      let r := match loss with Some l => dset "data_loss" l given | None => given end in
      Ok (d, r, match ix with IDict _ => Some r | _ => None end)
    end
  end.
(* DataTimePoint and DataTimeSlot: the data first, then the parent *)
Definition new_data_time_point (zone : string -> result string) (a : pargs) (d : option data) (ix : iarg) (loss : option (option Qc)) : result (item * option (dict (option Qc))) :=
  do (d, r, given) <- new_data d ix loss;
  do (t, z) <- new_time_point zone a;
  Ok (mkItem CDataTimePoint t t (UPhys q0) z (Some d) r None, given).
Definition new_data_time_slot (zone : string -> result string) (c : cal) (a : sargs) (d : option data) (ix : iarg) (loss : option (option Qc)) : result (item * option (dict (option Qc))) :=
  do (d, r, given) <- new_data d ix loss;
  do x <- new_time_slot zone c a;
  Ok (mkItem CDataTimeSlot (i_t x) (i_end x) (i_unit x) (i_tz x) (Some d) r None, given).
