(* FloatOps.v -- the operations on the values, the interpolators, the coverage and the
   data loss, with the arithmetic of Python's floats: as in Ops.v and Intervals.v, but each
   operation rounds.  The integers the code starts from or divides by (0, 1, 2, the number
   of items) are taken as floats, which is exact up to 2^53. *)
From Verif Require Export Base Items Series Ops Intervals Float.

(* x / y on floats *)
Definition f_div (x y : Qc) : result Qc :=
  if qeqb y q0 then Err ZeroDivisionError else Ok (fdiv x y).

(* operations.py 199-202 (and 171-175: there the first value is taken as it is, which is 0 plus it) *)
Definition f_sum_label (label : string) (l : list item) : result Qc :=
  foldM (fun a x => do v <- item_by_label x label; Ok (fadd a v)) l q0.
(* operations.py 191-206 *)
Definition f_op_sum (s : series) : result (dict Qc) :=
  do p <- op_prep s; per_label (snd p) (fun lb => f_sum_label lb (s_items s)).

(* operations.py 152-161 *)
Definition f_wsum_label (label : string) (l : list item) : result Qc :=
  foldM (fun a x => do v <- item_by_label x label; Ok (fadd a (fmul v (weight_of x)))) l q0.
Definition f_total_weight (l : list item) : Qc := fold_left (fun a x => fadd a (weight_of x)) l q0.
(* operations.py 127-188 *)
Definition f_op_avg (s : series) : result (dict Qc) :=
  do p <- op_prep s;
  let l := s_items s in
  if weighted l then
    let w := f_total_weight l in
    if qeqb w q1 then per_label (snd p) (fun lb => f_wsum_label lb l)
    else per_label (snd p) (fun lb => do v <- f_wsum_label lb l; f_div v w)
  else per_label (snd p) (fun lb => do v <- f_sum_label lb l; f_div v (qn (length l))).

(* operations.py 582-586 *)
Definition f_norm_value (lo hi : Qc) (target : Qc * Qc) (v : Qc) : result Qc :=
  do x <- f_div (fsub v lo) (fsub hi lo);
  if qeqb (fst target) q0 && qeqb (snd target) q1 then Ok x
  else Ok (fadd (fmul x (fsub (snd target) (fst target))) (fst target)).
(* operations.py 530-613; the minimum and the maximum are found by comparing, without rounding *)
Definition f_op_normalize (e : env) (s : series) (target : Qc * Qc) (source : option (dict (Qc * Qc))) : result series :=
  do p <- op_prep s;
  do rs <- per_label (snd p) (norm_range (s_items s) source);
  pointwise e (fun lb v => do r <- pick rs lb; f_norm_value (fst r) (snd r) target v) s.

(* operations.py 640-648 and 704-712, 616-677 and 680-742 *)
Definition f_rescale_value (k : konst) (label : string) (v : Qc) : result Qc :=
  match k with
  | KNum q => Ok (fmul v q)
  | KDict d => match dget label d with Some q => Ok (fmul v q) | None => Ok v end
  end.
Definition f_op_rescale (e : env) (s : series) (k : konst) : result series := pointwise e (f_rescale_value k) s.
Definition f_offset_value (k : konst) (label : string) (v : Qc) : result Qc :=
  match k with
  | KNum q => Ok (fadd v q)
  | KDict d => match dget label d with Some q => Ok (fadd v q) | None => Ok v end
  end.
Definition f_op_offset (e : env) (s : series) (k : konst) : result series := pointwise e (f_offset_value k) s.

(* operations.py 514-519 (Diff) and 266-349: Derivative with normalize=False and diffs=True *)
Definition f_diff_items (first : item) (labels : list string) (l : list item) : result (list item) :=
  mapM (fun ix => let '(i, x) := ix in
          do vs <- mapM (fun lb => do a <- val l i lb; do b <- val l (i - 1) lb; Ok (fsub a b)) labels;
          Ok (rebuild first x (build_data first (postfix "diff") labels vs) (i_idx x)))
       (filter (fun ix => negb (true && Nat.eqb (fst ix) 0)) (combine (seq 0 (length l)) l)).
Definition f_op_diff (e : env) (s : series) : result series :=
  match s_items s with
  | [] => Err ValueError
  | _ => match s_res s with
         | Some RVar => Err ValueError
         | _ => do p <- op_prep s;
                if Nat.eqb (length (s_items s)) 1 then Err ValueError
                else do l <- f_diff_items (fst p) (snd p) (s_items s); ts_of_items e l
         end
  end.

(* operations.py 463-491 with normalize=False and without constant: the last value, or 0, plus the value *)
Fixpoint f_csum_labels (l : list item) (i : nat) (last : dict Qc) (labels : list string) : result (dict Qc * list Qc) :=
  match labels with
  | [] => Ok (last, [])
  | lb :: r =>
    do v <- val l i lb;
    let w := match dget lb last with Some p => fadd p v | None => fadd v q0 end in
    do rest <- f_csum_labels l i (dset lb w last) r;
    Ok (fst rest, w :: snd rest)
  end.
(* operations.py 405-508 *)
Fixpoint f_csum_items (first : item) (labels : list string) (l : list item) (i : nat) (last : dict Qc) (rest : list item) : result (list item) :=
  match rest with
  | [] => Ok []
  | x :: r =>
    do sv <- f_csum_labels l i last labels;
    do ys <- f_csum_items first labels l (S i) (fst sv) r;
    Ok (rebuild first x (build_data first (postfix "csum") labels (snd sv)) (i_idx x) :: ys)
  end.
(* operations.py 522-527, without offset *)
Definition f_op_csum (e : env) (s : series) : result series :=
  match s_items s with
  | [] => Err ValueError
  | _ => match s_res s with
         | Some RVar => Err ValueError
         | _ => do p <- op_prep s;
                do l <- f_csum_items (fst p) (snd p) (s_items s) 0 [] (s_items s); ts_of_items e l
         end
  end.

(* operations.py 776-779 *)
Definition f_window_sum (l : list item) (label : string) (from n : nat) : result Qc :=
  foldM (fun a j => do v <- val l j label; Ok (fadd a v)) (seq from n) q0.
(* operations.py 745-803 *)
Definition f_op_mavg (e : env) (s : series) (window : Z) : result series :=
  do p <- op_prep s;
  if Z.ltb window 1 then Err AttributeError
  else
    let w := Z.to_nat window in
    do l <- mapM (fun ix => let '(i, x) := ix in
                    do vs <- mapM (fun lb => do v <- f_window_sum (s_items s) lb (i + 1 - w) w; f_div v (qz window)) (snd p);
                    Ok (rebuild (fst p) x (build_data (fst p) (postfix ("mavg_" ++ nat_str w)) (snd p) vs) []))
                 (filter (fun ix => negb (Nat.ltb (fst ix) (w - 1))) (combine (seq 0 (length (s_items s))) (s_items s)));
    ts_of_items e l.

(* interpolators.py 69-77 *)
Definition f_linear_value (prev next : item) (at_ : Qc) (label : string) : result Qc :=
  do b <- data_at next label; do a <- data_at prev label;
  do ratio <- f_div (fsub b a) (fsub (i_t next) (i_t prev));
  Ok (fadd a (fmul (fsub at_ (i_t prev)) ratio)).
(* interpolators.py 121-122 *)
Definition f_uniform_value (prev next : item) (at_ : Qc) (label : string) : result Qc :=
  do a <- data_at prev label; do b <- data_at next label;
  Ok (fadd a (fdiv (fsub b a) q2)).
(* interpolators.py 23-80: LinearInterpolator.evaluate *)
Definition f_linear_evaluate (s : series) (at_ : Qc) (pi ni : option Z) : result data :=
  match pi, ni with
  | Some _, None | None, Some _ => Err ValueError
  | None, None => match first_after at_ 0 (s_items s) with
                  | None => Err ValueError
                  | Some i => interp_data f_linear_value s at_ (Z.of_nat i - 1) (Z.of_nat i)
                  end
  | Some p, Some n => do _ <- check_between s at_ p n; interp_data f_linear_value s at_ p n
  end.
(* interpolators.py 90-124: UniformInterpolator.evaluate when both positions are given, prev_i not 0
   (see Intervals.v uniform_evaluate for the other cases) *)
Definition f_uniform_evaluate (s : series) (at_ : Qc) (p n : Z) : result data :=
  do _ <- check_between s at_ p n; interp_data f_uniform_value s at_ p n.

(* utilities.py 688-711 *)
Fixpoint f_coverage_loop (from to : Qc) (acc : Qc) (l : list vpoint) : Qc :=
  match l with
  | [] => acc
  | p :: r =>
    if qltb (vp_to p) from then f_coverage_loop from to acc r
    else if qleb to (vp_from p) then acc
    else if vp_interp p then f_coverage_loop from to acc r
    else
      let a := if qleb from (vp_from p) then vp_from p else from in
      let b := if qltb (vp_to p) to then vp_to p else to in
      f_coverage_loop from to (fadd acc (fsub b a)) r
  end.
(* utilities.py 655-719 *)
Definition f_coverage (l : list vpoint) (from to : Qc) : result Qc :=
  if qleb to from then Err ValueError
  else match l with
       | [] => Ok q0
       | _ => f_div (f_coverage_loop from to q0 l) (fsub to from)
       end.
(* utilities.py 758-788 *)
Definition f_loss_contribution (si from to : Qc) (p : vpoint) : result Qc :=
  match data_loss (vp_item p) with
  | None => Ok q0
  | Some d =>
    if qeqb d q0 then Ok q0
    else
      let f := fsub (i_t (vp_item p)) (fdiv si q2) in
      let t := fadd (i_t (vp_item p)) (fdiv si q2) in
      if qltb t from then Ok q0
      else if qleb to f then Ok q0
      else
        let c := if qltb f from then qabs (fsub from t)
                 else if qleb to t then qabs (fsub to f)
                 else si in
        do x <- f_div c (fsub to from); Ok (fmul d x)
  end.
Definition f_previous_losses (si from to : Qc) (l : list vpoint) : result Qc :=
  foldM (fun a p => do c <- f_loss_contribution si from to p; Ok (fadd a c)) l q0.
(* utilities.py 722-801 *)
Definition f_compute_data_loss (l : list vpoint) (has_res force : bool) (from to : Qc) (si : option Qc) (auto : result Qc) : result Qc :=
  do s <- interval_or si auto;
  do c <- f_coverage l from to;
  do p <- (if has_res || force then f_previous_losses s from to l else Ok q0);
  Ok (fadd (fsub q1 c) p).
