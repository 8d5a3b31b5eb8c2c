(* FloatInt.v -- MODEL of the integral with the arithmetic of Python's floats: as int_label, int_labels, int_items and op_integral of Ops.v
   (with normalize=True and without offset), but each operation rounds. *)
From Verif Require Export FloatOps.

(* operations.py 470-477: value + c[label], or value + c *)
Definition f_add_konst (v : Qc) (c : konst) (label : string) : result Qc :=
  match c with
  | KNum q => Ok (fadd v q)
  | KDict d => match dget label d with Some q => Ok (fadd v q) | None => Err TypeError end
  end.
(* operations.py 439-491: one label of one item *)
Definition f_int_label (var : bool) (si : Qc) (c : konst) (l : list item) (i : nat) (st : int_state) (label : string) : result (int_state * Qc) :=
  do inc_prc <-
    (if Nat.eqb i 0 then do v <- val l 0 label; Ok (q0, Some v)
     else do v <- val l (i - 1) label;
          match it_prc st with
          | None => Err UnboundLocalError
          | Some p => let left := fsub (fmul v q2) p in Ok (left, Some left)
          end);
  let '(inc, prc) := inc_prc in
  do value <-
    (if var then
       if Nat.eqb i 0 then Ok (fmul inc si)
       else match nth_error l i, nth_error l (i - 1) with
            | Some a, Some b => Ok (fmul inc (fsub (i_t a) (i_t b)))
            | _, _ => Err IndexError
            end
     else Ok (fmul inc si));
  do v <- match dget label (it_last st) with
          | Some last => Ok (fadd last value)
          | None => f_add_konst value c label
          end;
  Ok (mkInt (dset label v (it_last st)) prc, v).
(* for data_label in labels *)
Fixpoint f_int_labels var si c l i st labels : result (int_state * list Qc) :=
  match labels with
  | [] => Ok (st, [])
  | lb :: r => do sv <- f_int_label var si c l i st lb;
               do rest <- f_int_labels var si c l i (fst sv) r;
               Ok (fst rest, snd sv :: snd rest)
  end.
(* operations.py 405-508, out of place *)
Fixpoint f_int_items (first : item) (labels : list string) (var : bool) (si : Qc) (c : konst) (l : list item) (i : nat) (st : int_state) (rest : list item) : result (list item) :=
  match rest with
  | [] => Ok []
  | x :: r =>
    do sv <- f_int_labels var si c l i st labels;
    do ys <- f_int_items first labels var si c l (S i) (fst sv) r;
    Ok (rebuild first x (build_data first (postfix "integral") labels (snd sv)) (i_idx x) :: ys)
  end.
(* operations.py 355-511: Integral(series, c=k), out of place *)
Definition f_op_integral (e : env) (c : cal) (s : series) (k : konst) (auto : result Qc) : result series :=
  do p <- op_prep s;
  do vi <- op_interval c s (fst p) auto;
  do l <- f_int_items (fst p) (snd p) (fst vi) (snd vi) k (s_items s) 0 (mkInt [] None) (s_items s);
  ts_of_items e l.
