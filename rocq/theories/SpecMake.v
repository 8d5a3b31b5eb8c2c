(* SpecMake.v -- SPECIFICATION vocabulary for the making of points and slots (C87). *)
From Verif Require Export SpecLists Make.

(* The timezone asked for: an empty name is no name. *)
Definition asks_zone (zone : string -> result string) (tz : option string) (z : option string) : Prop :=
  ((tz = None \/ tz = Some ""%string) /\ z = None) \/ (exists n z', tz = Some n /\ n <> ""%string /\ zone n = Ok z' /\ z = Some z').
Definition or_utc (z : option string) : string := match z with Some z => z | None => "UTC"%string end.
(* What the arguments of a point say: the number if there is one by name; or else the datetime, in its timezone if no other one is asked for;
   or else the only argument, a number or a point (whose timezone is kept in any case). *)
Inductive point_says (zone : string -> result string) (a : pargs) : Qc -> string -> Prop :=
| says_t q z : asks_zone zone (pa_tz a) z -> pa_t a = Some (PNum q) -> point_says zone a q (or_utc z)
| says_dt d q z : asks_zone zone (pa_tz a) z -> pa_t a = None -> pa_dt a = Some d -> d_epoch d = Ok q ->
    point_says zone a q (or_utc (match z with Some _ => z | None => d_tz d end))
| says_number q z : asks_zone zone (pa_tz a) z -> pa_t a = None -> pa_dt a = None -> pa_other a = false -> pa_args a = [PNum q] -> point_says zone a q (or_utc z)
| says_point x z : asks_zone zone (pa_tz a) z -> pa_t a = None -> pa_dt a = None -> pa_other a = false -> pa_args a = [PItem x] -> is_point x = true ->
    point_says zone a (i_t x) (i_tz x).

(* The start of a slot: the datetime, the number, or the point. *)
Inductive starts_at (zone : string -> result string) (a : sargs) (p : item) : Prop :=
| start_dt d q z : sa_dt a = Some d -> point_says zone (mkPargs [] None (Some d) (sa_tz a) false) q z -> p = point_at q z ->
    (forall t, sa_t a = Some t -> exists q, t = PNum q) -> starts_at zone a p
| start_t t q z : sa_dt a = None -> sa_t a = Some t -> point_says zone (mkPargs [] (Some t) None (sa_tz a) false) q z -> p = point_at q z -> starts_at zone a p
| start_point : sa_dt a = None -> sa_t a = None -> sa_start a = SItem p -> is_point p = true -> starts_at zone a p.
(* Its end: a different point, in the same timezone; or else one unit later. *)
Inductive ends_at (c : cal) (a : sargs) (p : item) : Qc -> Prop :=
| end_point q : sa_end a = SItem q -> is_point q = true -> i_tz q = i_tz p -> sa_unit a <> UJunk -> ~ same_thing p q -> ends_at c a p (i_t q)
| end_unit u : sa_end a = SNone -> sa_unit a = UUnit u -> ends_at c a p (unit_shift c u (i_t p) 1).
(* The items in the arguments have dictionaries with no repeated keys, as all do. *)
Definition sane (a : sargs) : Prop := (forall x, sa_start a = SItem x -> well_keyed x) /\ (forall x, sa_end a = SItem x -> well_keyed x).
(* The same moment in another timezone. *)
Definition same_but_zone (x y : item) : Prop := exists z, y = set_item_tz x z.
