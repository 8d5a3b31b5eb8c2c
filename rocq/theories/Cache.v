(* Cache.v -- MODEL of the detected sampling interval and of the guessed resolution, which a series keeps once it has been asked for them
   (datastructures.py 1166-1177, 1266-1275, 1394-1414, 1435-1471).

   The series is the one of Series.v with what it keeps.  append (1267-1275) tries to delete the interval kept: but
   _autodetected_sampling_interval is a property without a deleter, so that del raises AttributeError, which is swallowed by the bare
   except, and the attribute which holds the value (with its mangled name) is never deleted.  No other method tries to. *)
From Verif Require Export Transform.

Record kept := mkKept {
  k_series : series;
  k_interval : option (option Qc * Qc);     (* __autodetected_sampling_interval and its confidence *)
  k_guess : option tunit }.                 (* _guessed_resolution *)
(* a new series *)
Definition nothing_kept (s : series) : kept := mkKept s None None.

(* issubclass(self.item_type, TimePoint), where item_type is None for an empty series (634-640): TypeError *)
Definition is_points (s : series) : result bool := match item_type s with None => Err TypeError | Some c => Ok (match c with CTimePoint | CDataTimePoint => true | _ => false end) end.

(* 1394-1414: the interval and its confidence; OutOfFuel stands for a detection which is still running *)
Definition ask (fuel : nat) (k : kept) : kept * result (option Qc * Qc) :=
  match is_points (k_series k) with
  | Err x => (k, Err x)
  | Ok false => (k, Err NotImplementedError)
  | Ok true =>
    match k_interval k with
    | Some v => (k, Ok v)
    | None => match detect_interval fuel (s_items (k_series k)) with
              | Some (Ok v) => (mkKept (k_series k) (Some v) (k_guess k), Ok v)
              | Some (Err x) => (k, Err x)
              | None => (k, Err OutOfFuel)
              end
    end
  end.
(* TimeUnit(_to_time_unit_string(interval)) *)
Definition unit_of_interval (e : env) (v : option Qc) : result tunit := match v with Some d => unit_of_s e d | None => Err ValueError end.

(* 1435-1459, with confidence=True (otherwise only the unit is returned): the return in the finally clause hides an exception of the detection, and reads the attribute which has not been set *)
Definition guess (fuel : nat) (e : env) (k : kept) : kept * result (tunit * Qc) :=
  let s := k_series k in
  match is_points s with
  | Err x => (k, Err x)
  | Ok false => (k, Err NotImplementedError)
  | Ok true =>
    if Nat.leb (length (s_items s)) 1 then (k, Err ValueError)
    else match resolution s with
         | Some RVar =>
           let k1 := match k_guess k with
                     | Some _ => k
                     | None => let a := ask fuel k in
                               match snd a with
                               | Ok v => match unit_of_interval e (fst v) with Ok u => mkKept (k_series (fst a)) (k_interval (fst a)) (Some u) | Err _ => fst a end
                               | Err _ => fst a
                               end
                     end in
           match k_guess k1 with
           | None => (k1, Err AttributeError)
           | Some u => let b := ask fuel k1 in (fst b, do v <- snd b; Ok (u, snd v))
           end
         | _ => (k, Err ValueError)
         end
  end.

(* 1166-1177, 1461-1471: the text of a series, where only the approximate resolution is modelled *)
Definition describe (fuel : nat) (e : env) (k : kept) : kept * result (option tunit) :=
  match s_items (k_series k), is_points (k_series k), resolution (k_series k) with
  | _ :: _, Ok true, Some RVar => let a := ask fuel k in (fst a, do v <- snd a; do u <- unit_of_interval e (fst v); Ok (Some u))
  | _, _, _ => (k, Ok None)
  end.

(* The methods which change a series do not change what it keeps; a duplicate (deepcopy) keeps the same. *)
Definition change (e : env) (k : kept) (o : op) : kept := mkKept (fst (step e (k_series k) o)) (k_interval k) (k_guess k).
Definition duplicate (e : env) (k : kept) : result kept := do s <- ts_duplicate e (k_series k); Ok (mkKept s (k_interval k) (k_guess k)).

(* A history of calls, where the exceptions are caught by the caller, who goes on; duplicating is going on with the copy. *)
Inductive call := Change (o : op) | Ask | Guess | Describe | Duplicate.
Definition kstep (fuel : nat) (e : env) (k : kept) (c : call) : kept :=
  match c with
  | Change o => change e k o
  | Ask => fst (ask fuel k)
  | Guess => fst (guess fuel e k)
  | Describe => fst (describe fuel e k)
  | Duplicate => match duplicate e k with Ok k' => k' | Err _ => k end
  end.
Definition kruns (fuel : nat) (e : env) (k : kept) (cs : list call) : kept := fold_left (kstep fuel e) cs k.

(* transformations.py 495-500: resampling a series, where the validity of the points is the interval kept if none is given *)
Definition kresample (fuel : nat) (e : env) (c : cal) (rd : rounding) (u : tunit) (k : kept) (start stop : option tlimit) (validity : option Qc) : result (series * list item) :=
  resample fuel e c rd u (k_series k) start stop validity (do v <- snd (ask fuel k); match fst v with Some d => Ok d | None => Err TypeError end).
