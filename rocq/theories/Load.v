(* Load.v -- MODEL of TimeSeries.save() and TimeSeries.load() (datastructures.py 1478-1519), with the comments of a CSV file in which the
   type, the timezone and the resolution of a series are written (storages.py 756-765).

   The texts of the date of writing and of the series (after its first words), and the reading of JSON, are parameters. *)
From Verif Require Export Save Csv.

(* str(series.resolution) *)
Definition resolution_text (ut : unit_text) (r : option res) : string := match r with None => "None" | Some RVar => "variable" | Some (RUnit u) => ut_str ut u end.
(* str(series.tz) *)
Definition tz_text (s : series) : string := match series_tz s with Some z => z | None => "None" end.
(* storages.py 760, 765 *)
Definition extra_text (type tz resolution : string) : string := (" {""type"": """ ++ type ++ """, ""tz"": """ ++ tz ++ """, ""resolution"": """ ++ resolution ++ """}")%string.
(* storages.py 757-765: for series of points or of slots with data; now: the text of the date, more: the text of the series after "Time series of #" *)
Definition comments_of (ut : unit_text) (now : string) (more : series -> string) (s : series) : list string :=
  [("Generated by Timeseria CSVFileStorage at " ++ now)%string; ("Time series of #" ++ more s)%string;
   ("Extra parameters:" ++ extra_text (match s_items s with x :: _ => if is_slot x then "slots" else "points" | [] => "points" end) (tz_text s) (resolution_text ut (resolution s)))%string].
(* datastructures.py 1514-1519: the options for the storage change nothing in writing *)
Definition save_series (nt : num_text) (ut : unit_text) (now : string) (more : series -> string) (d : cdisk) (overwrite : bool) (s : series) (p : list string) (f : cfs) : cfs * result unit :=
  csv_put nt (comments_of ut now more s) d overwrite s p f.

(* line.startswith(a), and what follows *)
Fixpoint after (a s : string) : option string :=
  match a, s with
  | EmptyString, _ => Some s
  | String x a, String y s => if Ascii.eqb x y then after a s else None
  | String _ _, EmptyString => None
  end.
(* 1483-1490: the parameters in the comments at the beginning of the file; if there are more, the last ones.  line.replace() is modelled as
   leaving out the beginning of the line (it would also remove the same words further on). *)
Fixpoint parameters (jl : string -> result (dict string)) (lines : list string) (found : option (dict string)) : result (option (dict string)) :=
  match lines with
  | [] => Ok found
  | l :: r => match after "#" l with
              | None => Ok found
              | Some _ => match after "# Extra parameters:" l with
                          | None => parameters jl r found
                          | Some t => do m <- jl t; parameters jl r (Some m)
                          end
              end
  end.
Definition key_of (m : dict string) (k : string) : result string := match dget k m with Some v => Ok v | None => Err KeyError end.
(* 1479-1511; own: the class is TimeSeries itself, otherwise the series is converted but nothing is returned (None).  A unit which cannot be
   parsed raises here (in the code, while reading the file). *)
Definition load_series (jl : string -> result (dict string)) (ut : unit_text) (fuel : nat) (nt : num_text) (k : cenv) (e : env) (c : cal) (own : bool) (file : option string) : result (option series) :=
  match file with
  | None => Err GenericException                              (* FileNotFoundError *)
  | Some txt =>
    do m <- parameters jl (lines_of txt) None;
    match m with
    | None | Some [] => Err ValueError
    | Some m =>
      do ty <- key_of m "type";
      do tz <- key_of m "tz";
      let points := String.eqb ty "points" in let slots := String.eqb ty "slots" in
      do u <- (if slots then do r <- key_of m "resolution"; do u <- ut_parse ut r; Ok (Some u) else Ok None);
      do s <- snd (csv_get fuel nt k e c (mkOptions 0 [] (Some tz) points slots u) csv_storage file);
      if own then Ok (Some s) else Ok None
    end
  end.
