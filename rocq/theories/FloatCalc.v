(* FloatCalc.v -- MODEL of the derivative with the arithmetic of Python's floats: as der_value, der_items and op_derivative of Ops.v, but
   each operation rounds.  The length of the resolution (a float or an integer in the code) is taken as it is. *)
From Verif Require Export FloatOps.

(* operations.py 285-318, with normalize=True and diffs=False: the value for one item and label *)
Definition f_der_value (var : bool) (si : Qc) (l : list item) (i : nat) (label : string) : result Qc :=
  if Nat.eqb i 0 then do b <- val l 1 label; do a <- val l 0 label; f_div (fsub b a) si
  else if Nat.eqb i (length l - 1) then do a <- val l i label; do b <- val l (i - 1) label; f_div (fsub a b) si
  else
    do m <- val l i label; do p <- val l (i - 1) label; do n <- val l (i + 1) label;
    if var then
      match nth_error l (i - 1), nth_error l i, nth_error l (i + 1) with
      | Some a, Some b, Some d =>
        do x <- f_div (fsub m p) (fsub (i_t b) (i_t a));
        do y <- f_div (fsub n m) (fsub (i_t d) (i_t b));
        f_div (fadd x y) q2
      | _, _, _ => Err IndexError
      end
    else do h <- f_div (fadd (fsub m p) (fsub n m)) q2; f_div h si.
(* operations.py 266-349, out of place *)
Definition f_der_items (first : item) (labels : list string) (var : bool) (si : Qc) (l : list item) : result (list item) :=
  mapM (fun ix => let '(i, x) := ix in
          do vs <- mapM (f_der_value var si l i) labels;
          Ok (rebuild first x (build_data first (postfix "derivative") labels vs) (i_idx x)))
       (combine (seq 0 (length l)) l).
(* operations.py 213-352: Derivative(series), out of place *)
Definition f_op_derivative (e : env) (c : cal) (s : series) (auto : result Qc) : result series :=
  do p <- op_prep s;
  if Nat.eqb (length (s_items s)) 1 then Err ValueError
  else
    do vi <- op_interval c s (fst p) auto;
    do l <- f_der_items (fst p) (snd p) (fst vi) (snd vi) (s_items s);
    ts_of_items e l.
