(* Ops.v -- MODEL of the operations (operations.py 40-62, 73-803, 851-878, 1002-1187).

   Simplifications: values are exact rationals; where the code loops over items and labels
   together, the loop over the labels may be outside (the values are the same, only the choice
   among several possible exceptions changes); the end of a slot rebuilt from start and unit is
   the end of the original slot. *)
From Verif Require Export Access.

(* Calendar arithmetic (propertime): length in seconds of a calendar unit from an epoch, and
   the epoch shifted a number of times by a unit. *)
Record cal := mkCal {
  cal_seconds : string -> Qc -> result Qc;
  cal_shift : string -> Qc -> Z -> Qc }.

(* TimeUnit.as_seconds(starting_at): units.py 194-196 *)
Definition unit_seconds (c : cal) (u : tunit) (t : Qc) : result Qc :=
  match u with UPhys s => Ok s | UCal n => cal_seconds c n t end.
(* t + k * unit: units.py 158-192 (TimeUnit.shift) *)
Definition unit_shift (c : cal) (u : tunit) (t : Qc) (k : Z) : Qc :=
  match u with UPhys s => Qcplus t (Qcmult (qz k) s) | UCal n => cal_shift c n t k end.

(* operations.py 46-48 and utilities.py 855-864: the checks done by all the operations; gives
   the first item and the labels. *)
Definition op_prep (s : series) : result (item * list string) :=
  match s_items s with
  | [] => Err ValueError
  | x :: _ =>
    match i_cls x with
    | CTimePoint | CTimeSlot => Err TypeError
    | _ => do o <- ts_data_labels s;
           match o with Some ls => Ok (x, ls) | None => Err ValueError end
    end
  end.

(* series[i]._data_by_label(label) *)
Definition val (l : list item) (i : nat) (label : string) : result Qc :=
  match nth_error l i with Some x => item_by_label x label | None => Err IndexError end.

(* a dictionary built by successive assignments *)
Definition dict_of {V} (l : list (string * V)) : dict V := fold_left (fun d kv => dset (fst kv) (snd kv) d) l [].

(* data = series[0].data.__class__() then one assignment / append for each label *)
Definition build_data (like : item) (keyf : string -> string) (labels : list string) (vals : list Qc) : data :=
  match i_data like with
  | Some (DList _) => DList vals
  | _ => DDict (dict_of (combine (map keyf labels) vals))
  end.

(* series[0].__class__(t=..., tz=..., data=..., data_indexes=...) or the same for slots *)
Definition rebuild (like x : item) (d : data) (ix : dict (option Qc)) : item :=
  mkItem (i_cls like) (i_t x) (i_end x) (i_unit x) (i_tz x) (Some d) ix None.

(* ---------------- scalars ---------------- *)

(* operations.py 84-92 and 112-119: the running extreme *)
Fixpoint scan (better : Qc -> Qc -> bool) (label : string) (acc : option Qc) (l : list item) : result (option Qc) :=
  match l with
  | [] => Ok acc
  | x :: r => do v <- item_by_label x label;
              scan better label (match acc with
                                 | None => Some v
                                 | Some a => if better v a then Some v else Some a
                                 end) r
  end.
Definition per_label {A} (labels : list string) (f : string -> result A) : result (dict A) :=
  mapM (fun lb => do v <- f lb; Ok (lb, v)) labels.
(* return d[data_label] if a label is given, d otherwise (the label is a key of the result) *)
Definition pick {A} (d : dict A) (label : string) : result A :=
  match dget label d with Some v => Ok v | None => Err KeyError end.

(* operations.py 73-97 *)
Definition op_max (s : series) : result (dict (option Qc)) :=
  do p <- op_prep s; per_label (snd p) (fun lb => scan (fun v a => qltb a v) lb None (s_items s)).
(* operations.py 101-124 *)
Definition op_min (s : series) : result (dict (option Qc)) :=
  do p <- op_prep s; per_label (snd p) (fun lb => scan (fun v a => qltb v a) lb None (s_items s)).

(* operations.py 199-202 *)
Definition sum_label (label : string) (l : list item) : result Qc :=
  foldM (fun a x => do v <- item_by_label x label; Ok (Qcplus a v)) l q0.
(* operations.py 191-206 *)
Definition op_sum (s : series) : result (dict Qc) :=
  do p <- op_prep s; per_label (snd p) (fun lb => sum_label lb (s_items s)).

(* operations.py 138-144: all the items have a weight *)
Definition weighted (l : list item) : bool :=
  forallb (fun x => match i_weight x with Some _ => true | None => false end) l.
Definition weight_of (x : item) : Qc := match i_weight x with Some w => w | None => q0 end.
(* operations.py 152-168 *)
Definition wsum_label (label : string) (l : list item) : result Qc :=
  foldM (fun a x => do v <- item_by_label x label; Ok (Qcplus a (Qcmult v (weight_of x)))) l q0.
Definition total_weight (l : list item) : Qc := fold_left (fun a x => Qcplus a (weight_of x)) l q0.
(* operations.py 127-188 *)
Definition op_avg (s : series) : result (dict Qc) :=
  do p <- op_prep s;
  let l := s_items s in
  if weighted l then
    let w := total_weight l in
    if qeqb w q1 then per_label (snd p) (fun lb => wsum_label lb l)
    else per_label (snd p) (fun lb => do v <- wsum_label lb l; qdiv v w)
  else per_label (snd p) (fun lb => do v <- sum_label lb l; qdiv v (qn (length l))).

(* ---------------- derivative and differences ---------------- *)

(* operations.py 237-250 and 378-390: resolution and sampling interval for the normalised
   operations; auto is series._autodetected_sampling_interval.  With an undefined resolution
   (one point only) the interval is None: arithmetic on it raises TypeError. *)
Definition op_interval (c : cal) (s : series) (first : item) (auto : result Qc) : result (bool * Qc) :=
  match s_res s with
  | Some RVar => do a <- auto; Ok (true, a)
  | Some (RUnit u) => do x <- unit_seconds c u (i_t first); Ok (false, x)
  | None => Err TypeError
  end.

(* operations.py 285-318: the value for one item and label *)
Definition der_value (normalize diffs var : bool) (si : Qc) (l : list item) (i : nat) (label : string) : result Qc :=
  if diffs then
    do a <- val l i label; do b <- val l (i - 1) label;
    if normalize then qdiv (Qcminus a b) si else Ok (Qcminus a b)
  else if Nat.eqb i 0 then
    do b <- val l 1 label; do a <- val l 0 label;
    if normalize then qdiv (Qcminus b a) si else Ok (Qcminus b a)
  else if Nat.eqb i (length l - 1) then
    do a <- val l i label; do b <- val l (i - 1) label;
    if normalize then qdiv (Qcminus a b) si else Ok (Qcminus a b)
  else
    do m <- val l i label; do p <- val l (i - 1) label; do n <- val l (i + 1) label;
    let dl := Qcminus m p in let dr := Qcminus n m in
    if normalize then
      if var then
        match nth_error l (i - 1), nth_error l i, nth_error l (i + 1) with
        | Some a, Some b, Some d =>
          do x <- qdiv dl (Qcminus (i_t b) (i_t a));
          do y <- qdiv dr (Qcminus (i_t d) (i_t b));
          qdiv (Qcplus x y) q2
        | _, _, _ => Err IndexError
        end
      else do h <- qdiv (Qcplus dl dr) q2; qdiv h si
    else qdiv (Qcplus dl dr) q2.

Definition postfix (p : string) (label : string) : string := (label ++ "_" ++ p)%string.

(* operations.py 266-349, out of place *)
Definition der_items (first : item) (labels : list string) (normalize diffs var : bool) (si : Qc) (l : list item) : result (list item) :=
  mapM (fun ix => let '(i, x) := ix in
          do vs <- mapM (der_value normalize diffs var si l i) labels;
          Ok (rebuild first x (build_data first (postfix (if normalize then "derivative" else "diff")) labels vs) (i_idx x)))
       (filter (fun ix => negb (diffs && Nat.eqb (fst ix) 0)) (combine (seq 0 (length l)) l)).

(* operations.py 213-352: Derivative(series, normalize, diffs), out of place *)
Definition op_derivative_gen (e : env) (c : cal) (s : series) (normalize diffs : bool) (auto : result Qc) : result series :=
  do p <- op_prep s;
  if Nat.eqb (length (s_items s)) 1 then Err ValueError
  else
    do vi <- (if normalize then op_interval c s (fst p) auto else Ok (false, q0));
    do l <- der_items (fst p) (snd p) normalize diffs (fst vi) (snd vi) (s_items s);
    ts_of_items e l.
Definition op_derivative (e : env) (c : cal) (s : series) (auto : result Qc) : result series :=
  op_derivative_gen e c s true false auto.

(* operations.py 514-519 *)
Definition op_diff (e : env) (c : cal) (s : series) : result series :=
  match s_items s with
  | [] => Err ValueError
  | _ => match s_res s with
         | Some RVar => Err ValueError
         | _ => op_derivative_gen e c s false true (Err NotImplementedError)
         end
  end.

(* ---------------- integral and cumulative sums ---------------- *)

(* a constant given as a number or per label *)
Inductive konst := KNum (q : Qc) | KDict (d : dict Qc).
Definition konst_truthy (k : konst) : bool :=
  match k with KNum q => negb (qeqb q q0) | KDict d => match d with [] => false | _ => true end end.
(* operations.py 470-477: value + c[label], or value + c *)
Definition add_konst (v : Qc) (c : konst) (label : string) : result Qc :=
  match c with
  | KNum q => Ok (Qcplus v q)
  | KDict d => match dget label d with Some q => Ok (Qcplus v q) | None => Err TypeError end
  end.

(* loop state: last_values and prev_right_component (one variable for all the labels) *)
Record int_state := mkInt { it_last : dict Qc; it_prc : option Qc }.

(* operations.py 439-491: one label of one item *)
Definition int_label (normalize var : bool) (si : Qc) (c : konst) (l : list item) (i : nat) (st : int_state) (label : string)
  : result (int_state * Qc) :=
  do inc_prc <-
    (if normalize then
       if Nat.eqb i 0 then do v <- val l 0 label; Ok (q0, Some v)
       else do v <- val l (i - 1) label;
            match it_prc st with
            | None => Err UnboundLocalError
            | Some p => let left := Qcminus (Qcmult v q2) p in Ok (left, Some left)
            end
     else do v <- val l i label; Ok (v, it_prc st));
  let '(inc, prc) := inc_prc in
  do value <-
    (if normalize then
       if var then
         if Nat.eqb i 0 then Ok (Qcmult inc si)
         else match nth_error l i, nth_error l (i - 1) with
              | Some a, Some b => Ok (Qcmult inc (Qcminus (i_t a) (i_t b)))
              | _, _ => Err IndexError
              end
       else Ok (Qcmult inc si)
     else Ok inc);
  do v <- match dget label (it_last st) with
          | Some last => Ok (Qcplus last value)
          | None => add_konst value c label
          end;
  Ok (mkInt (dset label v (it_last st)) prc, v).

(* for data_label in labels *)
Fixpoint int_labels normalize var si c l i st labels : result (int_state * list Qc) :=
  match labels with
  | [] => Ok (st, [])
  | lb :: r => do sv <- int_label normalize var si c l i st lb;
               do rest <- int_labels normalize var si c l i (fst sv) r;
               Ok (fst rest, snd sv :: snd rest)
  end.

(* operations.py 405-508, out of place: i is the position of the first item of the rest *)
Fixpoint int_items (first : item) (labels : list string) (normalize var : bool) (si : Qc) (c : konst)
  (l : list item) (i : nat) (st : int_state) (rest : list item) : result (list item) :=
  match rest with
  | [] => Ok []
  | x :: r =>
    do sv <- int_labels normalize var si c l i st labels;
    do ys <- int_items first labels normalize var si c l (S i) (fst sv) r;
    Ok (rebuild first x (build_data first (postfix (if normalize then "integral" else "csum")) labels (snd sv)) (i_idx x) :: ys)
  end.

(* operations.py 407-437: the item added before the first one when an offset is given *)
Definition offset_item (c : cal) (s : series) (first : item) (labels : list string) (normalize : bool) (offset : konst) : result item :=
  do vs <- mapM (fun lb => match offset, i_data first with
                           | KDict d, _ => match dget lb d with Some v => Ok v | None => Err KeyError end
                           | KNum q, Some (DList _) => Err TypeError
                           | KNum q, _ => Ok q
                           end) labels;
  let d := build_data first (postfix (if normalize then "integral" else "csum")) labels vs in
  let ix := [("data_loss"%string, Some q0)] in
  if is_point first then
    match s_res s with
    | Some (RUnit u) => let t := unit_shift c u (i_t first) (-1) in
                        Ok (mkItem (i_cls first) t t (i_unit first) (i_tz first) (Some d) ix None)
    | _ => Err TypeError
    end
  else Ok (mkItem (i_cls first) (unit_shift c (i_unit first) (i_t first) (-1)) (i_t first) (i_unit first) (i_tz first) (Some d) ix None).

(* operations.py 355-511: Integral(series, normalize, c, offset), out of place *)
Definition op_integral_gen (e : env) (c : cal) (s : series) (normalize : bool) (k offset : konst) (auto : result Qc) : result series :=
  do p <- op_prep s;
  do vi <- (if normalize then op_interval c s (fst p) auto else Ok (false, q0));
  do pre <- (if konst_truthy offset
             then do x <- offset_item c s (fst p) (snd p) normalize offset; Ok [x] else Ok []);
  let k' := if konst_truthy offset then offset else k in
  do l <- int_items (fst p) (snd p) normalize (fst vi) (snd vi) k' (s_items s) 0 (mkInt [] None) (s_items s);
  ts_of_items e (pre ++ l).
Definition op_integral (e : env) (c : cal) (s : series) (k offset : konst) (auto : result Qc) : result series :=
  op_integral_gen e c s true k offset auto.

(* operations.py 522-527; offset=None is KNum 0 *)
Definition op_csum (e : env) (c : cal) (s : series) (offset : konst) : result series :=
  match s_items s with
  | [] => Err ValueError
  | _ => match s_res s with
         | Some RVar => Err ValueError
         | _ => op_integral_gen e c s false (KNum q0) offset (Err NotImplementedError)
         end
  end.

(* ---------------- point-wise operations ---------------- *)

(* The common shape of rescale, offset and normalize: operations.py 634-676, 698-741, 572-613. *)
Definition pointwise_items (f : string -> Qc -> result Qc) (first : item) (labels : list string) (l : list item) : result (list item) :=
  mapM (fun x => do vs <- mapM (fun lb => do v <- item_by_label x lb; f lb v) labels;
                 Ok (rebuild first x (build_data first (fun lb => lb) labels vs) (i_idx x))) l.
Definition pointwise (e : env) (f : string -> Qc -> result Qc) (s : series) : result series :=
  do p <- op_prep s;
  do l <- pointwise_items f (fst p) (snd p) (s_items s);
  ts_of_items e l.

(* operations.py 640-648 *)
Definition rescale_value (k : konst) (label : string) (v : Qc) : result Qc :=
  match k with
  | KNum q => Ok (Qcmult v q)
  | KDict d => match dget label d with Some q => Ok (Qcmult v q) | None => Ok v end
  end.
(* operations.py 616-677 *)
Definition op_rescale (e : env) (s : series) (k : konst) : result series := pointwise e (rescale_value k) s.

(* operations.py 704-712 *)
Definition offset_value (k : konst) (label : string) (v : Qc) : result Qc :=
  match k with
  | KNum q => Ok (Qcplus v q)
  | KDict d => match dget label d with Some q => Ok (Qcplus v q) | None => Ok v end
  end.
(* operations.py 680-742 *)
Definition op_offset (e : env) (s : series) (k : konst) : result series := pointwise e (offset_value k) s.

(* operations.py 548-565: the source range of a label *)
Definition norm_range (l : list item) (source : option (dict (Qc * Qc))) (label : string) : result (Qc * Qc) :=
  match source with
  | Some ((_ :: _) as d) => match dget label d with Some r => Ok r | None => Err KeyError end
  | _ => do lo <- scan (fun v a => qltb v a) label None l;
         do hi <- scan (fun v a => qltb a v) label None l;
         match lo, hi with Some a, Some b => Ok (a, b) | _, _ => Err ValueError end
  end.
(* operations.py 582-586 *)
Definition norm_value (lo hi : Qc) (target : Qc * Qc) (v : Qc) : result Qc :=
  do x <- qdiv (Qcminus v lo) (Qcminus hi lo);
  if qeqb (fst target) q0 && qeqb (snd target) q1 then Ok x
  else Ok (Qcplus (Qcmult x (Qcminus (snd target) (fst target))) (fst target)).
(* operations.py 530-613 *)
Definition op_normalize (e : env) (s : series) (target : Qc * Qc) (source : option (dict (Qc * Qc))) : result series :=
  do p <- op_prep s;
  do rs <- per_label (snd p) (norm_range (s_items s) source);
  pointwise e (fun lb v => do r <- pick rs lb; norm_value (fst r) (snd r) target v) s.

(* ---------------- moving average ---------------- *)

(* operations.py 776-786 *)
Definition window_sum (l : list item) (label : string) (from n : nat) : result Qc :=
  foldM (fun a j => do v <- val l j label; Ok (Qcplus a v)) (seq from n) q0.
(* operations.py 745-803; a wrong window raises AttributeError (the message uses `.frmat`) *)
Definition op_mavg (e : env) (s : series) (window : Z) : result series :=
  do p <- op_prep s;
  if Z.ltb window 1 then Err AttributeError
  else
    let w := Z.to_nat window in
    do l <- mapM (fun ix => let '(i, x) := ix in
                    do vs <- mapM (fun lb => do v <- window_sum (s_items s) lb (i + 1 - w) w; qdiv v (qz window)) (snd p);
                    Ok (rebuild (fst p) x (build_data (fst p) (postfix ("mavg_" ++ nat_str w)) (snd p) vs) []))
                 (filter (fun ix => negb (Nat.ltb (fst ix) (w - 1))) (combine (seq 0 (length (s_items s))) (s_items s)));
    ts_of_items e l.

(* ---------------- filter, select ---------------- *)

(* operations.py 851-878: a copy of the item with only the given labels *)
Definition op_filter (e : env) (s : series) (labels : list string) : result series :=
  do p <- op_prep s;
  match i_data (fst p) with
  | Some (DDict _) =>
    do l <- mapM (fun x => do vs <- mapM (item_by_label x) labels;
                           Ok (set_data x (Some (DDict (dict_of (combine labels vs)))))) (s_items s);
    do r <- ts_of_items e l; Ok (reset_ref r)
  | _ => Err TypeError
  end.

(* operations.py 1177-1187: the loop of Select, given label and value; None if nothing matches *)
Definition select_items (label : string) (value : Qc) (l : list item) : result (option (list item)) :=
  foldM (fun acc x => do v <- item_by_label x label;
                      if qeqb v value then
                        match acc with None => Ok (Some [x]) | Some a => Ok (Some (a ++ [x])) end
                      else Ok acc) l None.

(* str primitives: `in`, split('='), strip() *)
Fixpoint str_contains (needle s : string) : bool :=
  match s with
  | EmptyString => String.prefix needle EmptyString
  | String _ r => String.prefix needle s || str_contains needle r
  end.
Fixpoint split_at (c : ascii) (s : string) : list string :=
  match s with
  | EmptyString => [EmptyString]
  | String a r => if Ascii.eqb a c then EmptyString :: split_at c r
                  else match split_at c r with
                       | w :: ws => String a w :: ws
                       | [] => [String a EmptyString]
                       end
  end.
Definition is_space (c : ascii) : bool := Ascii.eqb c " ".
Fixpoint lstrip (s : string) : string :=
  match s with String c r => if is_space c then lstrip r else s | EmptyString => s end.
Fixpoint str_rev (acc s : string) : string :=
  match s with EmptyString => acc | String c r => str_rev (String c acc) r end.
Definition strip (s : string) : string := str_rev "" (lstrip (str_rev "" (lstrip s))).
(* operations.py 1169-1173: quotes around the label *)
Definition unquote (s : string) : string :=
  let quote c := Ascii.eqb c (Ascii.ascii_of_nat 34) in
  let s1 := match s with String c r => if quote c then r else s | EmptyString => s end in
  match str_rev "" s1 with
  | String c r => if quote c then str_rev "" r else s1
  | EmptyString => s1
  end.

(* operations.py 1155-1187; float() of the text after the '=' is a parameter.  The condition
   of line 1161 only looks for ' and '. *)
Definition op_select (parse_float : string -> result Qc) (s : series) (query : string) : result (option (list item)) :=
  do p <- op_prep s;
  if str_contains " and " query then Err NotImplementedError
  else if negb (str_contains "=" query) then Err NotImplementedError
  else match split_at "=" query with
       | a :: b :: _ => do v <- parse_float b; select_items (unquote (strip a)) v (s_items s)
       | _ => Err IndexError
       end.

(* ---------------- merge ---------------- *)

(* operations.py 1012-1038: the resolutions must be the same (or close) *)
Definition res_eqb (a b : option res) : bool :=
  match a, b with
  | None, None => true
  | Some RVar, Some RVar => true
  | Some (RUnit u), Some (RUnit v) => tunit_eqb u v
  | _, _ => false
  end.
Definition res_compatible (e : env) (a b : option res) : bool :=
  res_eqb a b ||
  match a, b with
  | Some (RUnit u), Some (RUnit v) => match unit_close e v u with Ok r => r | Err _ => false end
  | _, _ => false
  end.
(* operations.py 1018-1032: the reference is the first resolution which is not None *)
Fixpoint same_resolutions (e : env) (ref : option res) (l : list (option res)) : bool :=
  match l with
  | [] => true
  | r :: l => match ref with
              | None => same_resolutions e r l
              | Some _ => res_compatible e ref r && same_resolutions e ref l
              end
  end.
(* the position of the item at t *)
Fixpoint find_t (l : list item) (t : Qc) (i : nat) : option nat :=
  match l with [] => None | x :: r => if qeqb (i_t x) t then Some i else find_t r t (S i) end.

(* operations.py 1098-1111: accumulate sums and counts by key, in order of first appearance *)
Definition acc_add (d : dict (Qc * nat)) (kv : string * Qc) : dict (Qc * nat) :=
  match dget (fst kv) d with
  | None => dset (fst kv) (snd kv, 1) d
  | Some (s, n) => dset (fst kv) (Qcplus s (snd kv), S n) d
  end.
Definition acc_avg (d : dict (Qc * nat)) : dict Qc :=
  map (fun kv => (fst kv, Qcdiv (fst (snd kv)) (qn (snd (snd kv))))) d.
(* the data of an item as pairs; with list data the code uses the values as positions, which
   is not modelled (TypeError) *)
Definition data_pairs (x : item) : result (list (string * Qc)) :=
  match i_data x with Some (DDict d) => Ok d | Some (DList _) => Err TypeError | None => Err AttributeError end.
(* the indexes which are not None *)
Definition idx_pairs (x : item) : list (string * Qc) :=
  flat_map (fun kv => match snd kv with Some v => [(fst kv, v)] | None => [] end) (i_idx x).

(* operations.py 1078-1144: one merged item, from the items in position i of each series *)
Definition merge_item (like0 ref_first ref_i : item) (xs : list item) : result item :=
  do ps <- mapM data_pairs xs;
  let data := acc_avg (fold_left acc_add (concat ps) []) in
  let ix := acc_avg (fold_left acc_add (flat_map idx_pairs xs) []) in
  Ok (mkItem (i_cls like0) (i_t ref_i) (i_end ref_i) (if is_slot ref_first then i_unit ref_first else i_unit ref_i)
             (if is_slot ref_first then i_tz ref_i else i_tz like0)
             (Some (DDict data)) (map (fun kv => (fst kv, Some (snd kv))) ix) None).

(* operations.py 1078-1144: the loop on the reference series *)
Fixpoint merge_loop (like0 ref_first : item) (lists : list (list item)) (offsets : list (option nat)) (end_t : Qc)
  (i : nat) (ref : list item) : result (list item) :=
  match ref with
  | [] => Ok []
  | x :: r =>
    if qltb end_t (i_t x) then Ok []
    else
      do xs <- mapM (fun lo => match snd lo with
                               | None => Err KeyError
                               | Some o => match nth_error (fst lo) (i + o) with Some y => Ok y | None => Err IndexError end
                               end) (combine lists offsets);
      do m <- merge_item like0 ref_first x xs;
      do ms <- merge_loop like0 ref_first lists offsets end_t (S i) r;
      Ok (m :: ms)
  end.

(* operations.py 1002-1148 *)
Definition op_merge (e : env) (ss : list series) : result series :=
  match ss with
  | [] => Err TypeError
  | s0 :: _ =>
    if existsb (fun s => match s_items s with [] => true | _ => false end) ss then
      match s_items s0 with [] => Err ValueError | _ => Err IndexError end
    else if existsb (fun s => match s_res s with Some RVar => true | _ => false end) ss then Err ValueError
    else if negb (same_resolutions e None (map s_res ss)) then Err ValueError
    else
      let lists := map s_items ss in
      let starts := flat_map (fun l => match l with x :: _ => [i_t x] | [] => [] end) lists in
      let ends := flat_map (fun l => match last_item l with Some x => [i_t x] | None => [] end) lists in
      match starts, ends, s_items s0 with
      | a :: starts', b :: ends', like0 :: _ =>
        let start_t := fold_left (fun m t => if qltb m t then t else m) starts' a in
        let end_t := fold_left (fun m t => if qltb t m then t else m) ends' b in
        (* the last of the series starting at start_t *)
        match find (fun l => match l with x :: _ => qeqb (i_t x) start_t | [] => false end) (rev lists) with
        | Some ((rf :: _) as ref) =>
          do l <- merge_loop like0 rf lists (map (fun l => find_t l start_t 0) lists) end_t 0 ref;
          ts_of_items e l
        | _ => Err UnboundLocalError
        end
      | _, _, _ => Err IndexError
      end
  end.

(* ---------------- in-place versions ---------------- *)

(* item.data[key] = value, or item.data[int(label)] = value *)
Definition set_value (x : item) (keyf : string -> string) (label : string) (v : Qc) : result item :=
  match i_data x with
  | Some (DDict d) => Ok (set_data x (Some (DDict (dset (keyf label) v d))))
  | Some (DList l) =>
    match parse_nat label with
    | Some n => if Nat.ltb n (length l)
                then Ok (set_data x (Some (DList (firstn n l ++ v :: skipn (S n) l))))
                else Err IndexError
    | None => Err ValueError
    end
  | None => Err AttributeError
  end.
Definition list_update {A} (l : list A) (i : nat) (x : A) : list A := firstn i l ++ x :: skipn (S i) l.

(* the labels of series[0], evaluated at every iteration on the items as they are *)
Definition cur_labels (l : list item) : result (list string) :=
  match l with
  | [] => Ok []
  | x :: _ => do d <- item_data x; Ok (data_labels_of d)
  end.

(* operations.py 634-661, 698-726, 572-597, in place: each value from the one it replaces *)
Definition inplace_pointwise (f : string -> Qc -> result Qc) (s : series) : result series :=
  do p <- op_prep s;
  do l <- foldM (fun l i =>
            do labels <- cur_labels l;
            foldM (fun l lb =>
              match nth_error l i with
              | None => Err IndexError
              | Some x => do v <- item_by_label x lb; do w <- f lb v;
                          do x' <- set_value x (fun k => k) lb w; Ok (list_update l i x')
              end) labels l) (seq 0 (length (s_items s))) (s_items s);
  Ok (set_items s l).

(* operations.py 616-661 and 680-726, in place *)
Definition inplace_rescale (s : series) (k : konst) : result series := inplace_pointwise (rescale_value k) s.
Definition inplace_offset (s : series) (k : konst) : result series := inplace_pointwise (offset_value k) s.
(* operations.py 530-600, in place *)
Definition inplace_normalize (s : series) (target : Qc * Qc) (source : option (dict (Qc * Qc))) : result series :=
  do p <- op_prep s;
  do rs <- per_label (snd p) (norm_range (s_items s) source);
  inplace_pointwise (fun lb v => do r <- pick rs lb; norm_value (fst r) (snd r) target v) s.

(* operations.py 266-331, in place (no diffs): the values are read from the items being changed *)
Definition inplace_derivative (c : cal) (s : series) (normalize : bool) (auto : result Qc) : result series :=
  do p <- op_prep s;
  if Nat.eqb (length (s_items s)) 1 then Err ValueError
  else
    do vi <- (if normalize then op_interval c s (fst p) auto else Ok (false, q0));
    do l <- foldM (fun l i =>
              do labels <- cur_labels l;
              foldM (fun l lb =>
                do w <- der_value normalize false (fst vi) (snd vi) l i lb;
                match nth_error l i with
                | None => Err IndexError
                | Some x => do x' <- set_value x (postfix (if normalize then "derivative" else "diff")) lb w; Ok (list_update l i x')
                end) labels l) (seq 0 (length (s_items s))) (s_items s);
    Ok (set_items s l).

(* operations.py 405-491, in place (no offset) *)
Definition inplace_integral (c : cal) (s : series) (normalize : bool) (k : konst) (auto : result Qc) : result series :=
  do p <- op_prep s;
  do vi <- (if normalize then op_interval c s (fst p) auto else Ok (false, q0));
  do ls <- foldM (fun ls i =>
             do labels <- cur_labels (fst ls);
             foldM (fun ls lb =>
               do sv <- int_label normalize (fst vi) (snd vi) k (fst ls) i (snd ls) lb;
               match nth_error (fst ls) i with
               | None => Err IndexError
               | Some x => do x' <- set_value x (postfix (if normalize then "integral" else "csum")) lb (snd sv);
                           Ok (list_update (fst ls) i x', fst sv)
               end) labels ls) (seq 0 (length (s_items s))) (s_items s, mkInt [] None);
  Ok (set_items s (fst ls)).
