(* Lstm.v -- MODEL of the matrix representation and of the features of the neural networks (models/base.py 561-672), and of
   the LSTM forecaster (models/forecasters.py 793-1042).  The network itself is an arbitrary function of the features;
   training it is an arbitrary function of the features and of the target values. *)
From Verif Require Export Forecast.

(* ---------------- matrix representation ---------------- *)

(* models/base.py 579-585: the elements of a window; None: TooMuchDataLoss *)
Fixpoint gather (s : series) (limit : option Qc) (start : Z) (js : list nat) : result (option (list item)) :=
  match js with
  | [] => Ok (Some [])
  | j :: r =>
    do x <- ts_get_i s (start + Z.of_nat j)%Z;
    do out <- left_out limit x;
    if out then Ok None
    else do o <- gather s limit start r; Ok (match o with Some w => Some (x :: w) | None => None end)
  end.
(* models/base.py 577-602: window, target values and context data of the item i *)
Definition matrix_row (s : series) (window : nat) (ctx : option (list string)) (targets : list string) (limit : option Qc) (i : nat)
    : result (option (list item * list Qc * option (dict Qc))) :=
  do o <- gather s limit (Z.of_nat i - Z.of_nat window)%Z (seq 0 window);
  match o with
  | None => Ok None
  | Some w =>
    do x <- ts_get_i s (Z.of_nat i);
    do out <- left_out limit x;
    if out then Ok None
    else
      do ts <- mapM (data_at x) targets;
      do c <- match ctx with
              | None => Ok None
              | Some ls => do vs <- mapM (fun lb => do v <- data_at x lb; Ok (lb, v)) ls; Ok (Some (dict_of vs))
              end;
      Ok (Some (w, ts, c))
  end.
Fixpoint keep_some {A} (l : list (option A)) : list A :=
  match l with [] => [] | Some x :: r => x :: keep_some r | None :: r => keep_some r end.
(* models/base.py 562-604: window elements, target values, context data (if required) *)
Definition to_matrix (s : series) (window steps : nat) (ctx : option (list string)) (targets : list string) (limit : option Qc)
    : result (list (list item) * list (list Qc) * list (dict Qc)) :=
  if Nat.ltb 1 steps then Err NotImplementedError
  else
    do rows <- mapM (matrix_row s window ctx targets limit) (seq window (length (s_items s) - window));
    let rows := keep_some rows in
    Ok (map (fun r => fst (fst r)) rows, map (fun r => snd (fst r)) rows, keep_some (map (fun r => snd r) rows)).

(* ---------------- features ---------------- *)

(* except KeyError *)
Definition or_zero (r : result Qc) : result Qc := match r with Err KeyError => Ok q0 | _ => r end.
Definition nth_item (w : list item) (i : nat) : result item := match nth_error w i with Some x => Ok x | None => Err IndexError end.
(* models/base.py 649-658 *)
Definition diff_at (w : list item) (i : nat) (lb : string) : result Qc :=
  or_zero (
    do d <- (if Nat.eqb i 0 then
               do b <- nth_item w 1; do y <- data_at b lb; do a <- nth_item w 0; do x <- data_at a lb; Ok (Qcminus y x)
             else if Nat.eqb i (length w - 1) then
               do b <- nth_item w (length w - 1); do y <- data_at b lb; do a <- nth_item w (length w - 2); do x <- data_at a lb; Ok (Qcminus y x)
             else
               do b <- nth_item w (i + 1); do y <- data_at b lb; do a <- nth_item w (i - 1); do x <- data_at a lb; Ok (Qcdiv (Qcminus y x) q2));
    Ok (if qeqb d q0 then q1 else d)).
Definition has_feature (f : string) (features : list string) : bool := existsb (String.eqb f) features.
(* models/base.py 634-665: the features of an item; hour is the hour of the day of an instant in a timezone *)
Definition item_features (hour : string -> Qc -> Z) (features labels : list string) (w : list item) (i : nat) : result (list Qc) :=
  do x <- nth_item w i;
  do vs <- (if has_feature "values" features then mapM (fun lb => or_zero (data_at x lb)) labels else Ok []);
  do ds <- (if has_feature "diffs" features then mapM (diff_at w i) labels else Ok []);
  Ok (vs ++ ds ++ (if has_feature "hours" features then [Qcdiv (qz (hour (i_tz x) (i_t x))) (qz 24)] else [])).
(* models/base.py 624-629: the context data are put in an item after the last one; slots cannot be built in that way *)
Definition with_context_item (c : cal) (w : list item) (r : option res) (ctx : option (dict Qc)) : result (list item) :=
  match ctx with
  | None | Some [] => Ok w
  | Some d =>
    do x <- match w with [] => Err IndexError | _ => nth_item w (length w - 1) end;
    match r with
    | Some (RUnit u) =>
      if is_slot x then Err AttributeError
      else Ok (w ++ [mkItem CDataTimePoint (unit_shift c u (i_t x) 1) (unit_shift c u (i_t x) 1) (i_unit x) (i_tz x) (Some (DDict d)) [] None])
    | _ => Err TypeError
    end
  end.
(* models/base.py 606-672 *)
Definition window_features (hour : string -> Qc -> Z) (c : cal) (w : list item) (labels : list string) (r : option res) (features : list string) (ctx : option (dict Qc))
    : result (list (list Qc)) :=
  if forallb (fun f => existsb (String.eqb f) ["values"; "diffs"; "hours"]%string) features then
    do w <- with_context_item c w r ctx;
    mapM (item_features hour features labels w) (seq 0 (length w))
  else Err ValueError.

(* ---------------- normalisation ---------------- *)

Definition normalize (lo hi v : Qc) : result Qc := qdiv (Qcminus v lo) (Qcminus hi lo).
Definition denormalize (lo hi y : Qc) : Qc := Qcplus (Qcmult y (Qcminus hi lo)) lo.
(* models/forecasters.py 925-928, 1012-1013 and 1017-1018: each label of the data *)
Definition normalize_entry (mins maxs : dict Qc) (kv : string * Qc) : result (string * Qc) :=
  do lo <- pick mins (fst kv); do hi <- pick maxs (fst kv); do y <- normalize lo hi (snd kv); Ok (fst kv, y).
Definition normalize_data (mins maxs : dict Qc) (d : dict Qc) : result (dict Qc) := mapM (normalize_entry mins maxs) d.
(* lists are looked up with their own values (a failure, in general) *)
Definition normalize_item (mins maxs : dict Qc) (x : item) : result item :=
  do d <- item_data x;
  match d with
  | DDict d => do d' <- normalize_data mins maxs d; Ok (set_data x (Some (DDict d')))
  | DList _ => Err TypeError
  end.
Definition numbers (d : dict (option Qc)) : result (dict Qc) :=
  mapM (fun kv => match snd kv with Some v => Ok (fst kv, v) | None => Err TypeError end) d.

(* ---------------- the forecaster ---------------- *)

Definition network := list (list Qc) -> list Qc.
(* What it keeps; lm_norm: min_values and max_values, if set *)
Record lstm := mkLstm { lm_window : nat; lm_features : list string; lm_labels : list string; lm_targets : list string; lm_context : option (list string);
  lm_norm : option (dict Qc * dict Qc); lm_net : network }.
Inductive target := TAll | TLabel (lb : string) | TLabels (ls : list string).
(* models/forecasters.py 879-905: for a list, target_data_labels is looked at before being set *)
Definition choose_labels (labels : list string) (t : target) (with_context : bool) : result (list string * option (list string)) :=
  match t with
  | TAll => if with_context then Err ValueError else Ok (labels, None)
  | TLabels _ => Err UnboundLocalError
  | TLabel lb => if existsb (String.eqb lb) labels then Ok ([lb], if with_context then Some (filter (fun x => negb (existsb (String.eqb x) [lb])) labels) else None) else Err ValueError
  end.
Definition context_at (with_context : bool) (cs : list (dict Qc)) (k : nat) : result (option (dict Qc)) :=
  if with_context then match nth_error cs k with Some c => Ok (Some c) | None => Err IndexError end else Ok None.
Fixpoint features_matrix (hour : string -> Qc -> Z) (c : cal) (labels : list string) (r : option res) (features : list string) (with_context : bool) (cs : list (dict Qc)) (k : nat) (ws : list (list item))
    : result (list (list (list Qc))) :=
  match ws with
  | [] => Ok []
  | w :: t => do ctx <- context_at with_context cs k; do f <- window_features hour c w labels r features ctx; do fs <- features_matrix hour c labels r features with_context cs (S k) t; Ok (f :: fs)
  end.
(* models/forecasters.py 917-933: the factors, and the series the network is fitted on *)
Definition normalize_series (e : env) (s : series) : result (series * dict Qc * dict Qc) :=
  do k <- ts_duplicate e s;
  do mins <- op_min k; do maxs <- op_max k;
  do mins <- numbers mins; do maxs <- numbers maxs;
  do items <- mapM (normalize_item mins maxs) (s_items k);
  Ok (set_items k items, mins, maxs).
(* models/forecasters.py 846-976; without normalisation the factors of a previous fit are left *)
Definition lstm_fit (e : env) (hour : string -> Qc -> Z) (c : cal) (train : list (list (list Qc)) -> list (list Qc) -> network)
    (m : lstm) (s : series) (norm : bool) (t : target) (with_context : bool) (limit : option Qc) : result lstm :=
  do labels <- labels_of s;
  do tc <- choose_labels labels t with_context;
  do q <- (if norm then do q <- normalize_series e s; Ok (fst (fst q), Some (snd (fst q), snd q)) else Ok (s, lm_norm m));
  do mat <- to_matrix (fst q) (lm_window m) 1 (snd tc) (fst tc) limit;
  let '(ws, ts, cs) := mat in
  match ws with
  | [] => Err ValueError
  | _ =>
    do fs <- features_matrix hour c labels (resolution (fst q)) (lm_features m) with_context cs 0 ws;
    Ok (mkLstm (lm_window m) (lm_features m) labels (fst tc) (snd tc) (snd q) (train fs ts))
  end.

(* models/forecasters.py 995: series[-window:] (all of it if the window is zero) *)
Definition last_items {A} (n : nat) (l : list A) : list A := match n with O => l | _ => skipn (length l - n) l end.
(* models/forecasters.py 978-1042; the items of the window are those of a duplicate *)
Definition lstm_predict (hour : string -> Qc -> Z) (c : cal) (m : lstm) (s : series) (steps : nat) (ctx : option (dict Qc)) : result (dict Qc) :=
  if Nat.ltb (length (s_items s)) (lm_window m) then Err ValueError
  else if Nat.ltb 1 steps then Err NotImplementedError
  else
    let w := last_items (lm_window m) (s_items s) in
    do wc <- match lm_norm m with
             | None => Ok (w, ctx)
             | Some (mins, maxs) =>
               do w' <- mapM (normalize_item mins maxs) w;
               do ctx' <- match ctx with Some (kv :: d) => do d' <- normalize_data mins maxs (kv :: d); Ok (Some d') | _ => Ok ctx end;
               Ok (w', ctx')
             end;
    do f <- window_features hour c (fst wc) (lm_labels m) (resolution s) (lm_features m) (snd wc);
    let y := lm_net m f in
    do vs <- mapM (fun il => do v <- match nth_error y (fst il) with Some v => Ok v | None => Err IndexError end;
                             match lm_norm m with
                             | None => Ok (snd il, v)
                             | Some (mins, maxs) => do lo <- pick mins (snd il); do hi <- pick maxs (snd il); Ok (snd il, denormalize lo hi v)
                             end) (combine (seq 0 (length (lm_targets m))) (lm_targets m));
    Ok (dict_of vs).
