(* Anomaly.v -- MODEL of the model-based anomaly detectors (models/anomaly_detectors.py 219-774).

   The checks done by the decorators before fit and apply are in Models.v.  The inner model after its fit, the fit of the error
   distributions, the standard deviation, the density functions and the bisection of find_x, and the logarithm are arbitrary
   functions.  The values of a density are numpy numbers: where a division by zero gives nan or infinity (with a warning), the
   model stops with NotANumber, and nothing is said about what the code does from there on.  verbose and summary are not modelled. *)
From Verif Require Export Recon.

(* ---------------- the inner model ---------------- *)
Inductive pvalue := PvNum (q : Qc) | PvList (l : list Qc).
Inductive prediction := PrList (l : list (dict Qc)) | PrDict (d : dict pvalue) | PrOther.
(* The inner model: a forecaster, one forecaster for each label given the data of the item as context, a reconstructor, or
   something else. *)
Inductive inner :=
| IForecaster (predict : view -> result prediction)
| IWithContext (models : dict (view -> data -> result prediction))
| IReconstructor (predict : series -> nat -> nat -> result prediction)
| INeither.
Definition is_reconstructor (m : inner) : bool := match m with IReconstructor _ => true | _ => false end.

(* models/anomaly_detectors.py 241-250 *)
Definition predicted_value (p : prediction) (lb : string) : result Qc :=
  match p with
  | PrList [] => Err IndexError
  | PrList (d :: _) => match dget lb d with Some v => Ok v | None => Err KeyError end
  | PrDict d => match dget lb d with
                | None => Err KeyError
                | Some (PvNum v) => Ok v
                | Some (PvList (v :: _)) => Ok v
                | Some (PvList []) => Err IndexError
                end
  | PrOther => Err TypeError
  end.
(* models/anomaly_detectors.py 223-252; series.view(from_i=0, to_i=i) is a view (Access.v) *)
Definition predicted_of (m : inner) (s : series) (i : nat) (lb : string) : result Qc :=
  let v := mkView s 0 (Z.of_nat i) in
  do p <- match m with
          | IReconstructor f => f s i i
          | IForecaster f => f v
          | IWithContext fs => do f <- match dget lb fs with Some f => Ok f | None => Err KeyError end;
                               do x <- ts_get_i s (Z.of_nat i); do d <- item_data x; f v d
          | INeither => Err TypeError
          end;
  predicted_value p lb.
(* models/anomaly_detectors.py 219-221 *)
Definition actual_of (s : series) (i : nat) (lb : string) : result Qc := do x <- ts_get_i s (Z.of_nat i); data_at x lb.

(* ---------------- errors ---------------- *)
(* The metrics; MSle is accepted at the start of fit but is not implemented *)
Inductive metric := ME | MAE | MPE | MAPE | MSle | MUnknown.
(* models/anomaly_detectors.py 353-362, 684-693 *)
Definition error_of (m : metric) (actual predicted : Qc) : result Qc :=
  match m with
  | ME => Ok (Qcminus actual predicted)
  | MAE => Ok (qabs (Qcminus actual predicted))
  | MPE => qdiv (Qcminus actual predicted) actual
  | MAPE => do q <- qdiv (Qcminus actual predicted) actual; Ok (qabs q)
  | MSle | MUnknown => Err ValueError
  end.

(* A fitted error distribution (utilities.py 392-449): its density, location, and find_x *)
Record dist := mkDist { pdf : Qc -> Qc; loc : Qc; find_x : Qc -> result Qc }.
(* A fitted detector; the errors are missing if fitted with store_errors=False *)
Record detector_model := mkDetector {
  an_inner : inner; an_window : nat; an_metric : metric;
  an_errors : option (dict (list Qc)); an_stdevs : dict Qc; an_dists : dict dist }.

Definition by_key {V} (d : dict V) (k : string) : result V := match dget k d with Some v => Ok v | None => Err KeyError end.
Fixpoint take_while {A} (f : A -> bool) (l : list A) : list A :=
  match l with [] => [] | x :: r => if f x then x :: take_while f r else [] end.
(* The positions not skipped by the loops on the items: `continue` up to the window and, for a reconstructor, `break` after the
   end of the window (models/anomaly_detectors.py 336-343, 500-507, 633-640) *)
Definition positions (m : inner) (w n : nat) : list nat :=
  let l := filter (fun i => negb (Nat.leb i w)) (seq 0 n) in
  if is_reconstructor m then take_while (fun i => negb (Z.ltb (Z.of_nat n - Z.of_nat w - 1) (Z.of_nat i))) l else l.

(* ---------------- fit ---------------- *)
(* models/anomaly_detectors.py 325-362: the errors of a label *)
Definition errors_of (m : inner) (w : nat) (k : metric) (s : series) (lb : string) : result (list Qc) :=
  mapM (fun i => do a <- actual_of s i lb; do p <- predicted_of m s i lb; error_of k a p) (positions m w (length (s_items s))).
(* models/anomaly_detectors.py 255-411: the detector, given the fitted inner model, its window, what fits a distribution to
   the errors and the standard deviation *)
Definition an_fit (m : inner) (w : nat) (k : metric) (store : bool) (fit_dist : list Qc -> result dist) (stdev : list Qc -> result Qc) (s : series) : result detector_model :=
  match k with
  | MUnknown => Err ValueError
  | _ =>
    do ls <- labels_of s;
    do es <- mapM (fun lb => do l <- errors_of m w k s lb; Ok (lb, l)) ls;
    do ds <- mapM (fun e => do d <- fit_dist (snd e); do sd <- stdev (snd e); Ok (fst e, (d, sd))) es;
    Ok (mkDetector m w k (if store then Some es else None) (map (fun x => (fst x, snd (snd x))) ds) (map (fun x => (fst x, fst (snd x))) ds))
  end.

(* ---------------- the range of the index ---------------- *)
(* An index bound; the strings as read: 'x_sigma' or 'xsig', 'adherence/x', and all the others *)
Inductive bound := BNum (q : Qc) | BMaxErr | BAvgErr | BSigma (q : Qc) | BAdherence (q : Qc) | BUnknown.
Definition np_div (x y : Qc) : result Qc := if qeqb y q0 then Err NotANumber else Ok (Qcdiv x y).
(* max() of a list *)
Definition lmax (l : list Qc) : result Qc := match l with [] => Err ValueError | x :: r => Ok (fold_left (fun a b => if qltb a b then b else a) r x) end.
Definition lmin (l : list Qc) : result Qc := match l with [] => Err ValueError | x :: r => Ok (fold_left (fun a b => if qltb b a then b else a) r x) end.
Definition lsum (l : list Qc) : Qc := fold_left Qcplus l q0.
Definition lavg (l : list Qc) : result Qc := qdiv (lsum l) (qn (length l)).
(* models/anomaly_detectors.py 578-594: a string is replaced by its value, which a tuple does not support *)
Definition bound_of (D : detector_model) (lb : string) (d : dist) (errors : list Qc) (tuple : bool) (b : bound) : result Qc :=
  let replaced (r : result Qc) := do x <- r; if tuple then Err TypeError else Ok x in
  match b with
  | BNum q => Ok q
  | BMaxErr => replaced (lmax errors)
  | BAvgErr => replaced (lavg errors)
  | BSigma q => replaced (do sd <- by_key (an_stdevs D) lb; Ok (Qcmult q sd))
  | BAdherence q => replaced (do y <- np_div (pdf d (loc d)) q; find_x d y)
  | BUnknown => Err ValueError
  end.
Inductive itype :=
| ILin | ILog
| ICustom (f : Qc -> Qc -> Qc -> Qc -> Qc -> Qc -> result Qc)
| IUnknown.
Record range := mkRange { r_dist : dist; r_xs : Qc; r_xe : Qc; r_ys : Qc; r_ye : Qc; r_log : Qc * Qc; r_ymax : Qc }.
(* math.log10, lg where it is defined *)
Definition log10 (lg : Qc -> Qc) (y : Qc) : result Qc := if qleb y q0 then Err ValueError else Ok (lg y).
(* models/anomaly_detectors.py 572-618 *)
Definition range_of (lg : Qc -> Qc) (D : detector_model) (it : itype) (tuple : bool) (b0 b1 : bound) (lb : string) : result range :=
  do es <- match an_errors D with Some es => Ok es | None => Err KeyError end;
  do es <- by_key es lb;
  do d <- by_key (an_dists D) lb;
  let ab := map qabs es in
  do xs <- bound_of D lb d ab tuple b0;
  do xe <- bound_of D lb d ab tuple b1;
  do ll <- match it with
           | ILog => do a <- log10 lg (pdf d xs); do b <- log10 lg (pdf d xe); Ok (a, b)
           | _ => Ok (q0, q0)
           end;
  Ok (mkRange d xs xe (pdf d xs) (pdf d xe) ll (pdf d (loc d))).

(* ---------------- the index of a label ---------------- *)
(* models/anomaly_detectors.py 696-697 *)
Definition fold_error (d : dist) (err : Qc) : Qc := if qltb err (loc d) then Qcplus (qabs err) (loc d) else err.
(* models/anomaly_detectors.py 703-722 *)
Definition index_at (lg : Qc -> Qc) (it : itype) (g : range) (x : Qc) : result Qc :=
  let y := pdf (r_dist g) x in
  if qleb x (r_xs g) then Ok q0
  else if qleb (r_xe g) x then Ok q1
  else match it with
       | ILin => do q <- np_div (Qcminus y (r_ye g)) (Qcminus (r_ys g) (r_ye g)); Ok (Qcminus q1 q)
       | ILog => do l <- log10 lg y; qdiv (Qcminus l (fst (r_log g))) (Qcminus (snd (r_log g)) (fst (r_log g)))
       | ICustom f => f x y (r_xs g) (r_xe g) (r_ys g) (r_ye g)
       | IUnknown => Err ValueError
       end.
(* models/anomaly_detectors.py 724-728 *)
Definition cut (thr : option Qc) (v : Qc) : Qc := match thr with None => v | Some t => if qltb v t then q0 else q1 end.

Inductive details := DNone | DAll | DSome (pred err adh : bool) | DOther.
Inductive strategy := SMin | SMax | SAvg | SCustom (f : list Qc -> result Qc).
Record apply_args := mkArgs {
  aa_tuple : bool; aa_start : bound; aa_end : bound; aa_type : itype; aa_threshold : option Qc;
  aa_strategy : strategy; aa_loss : Qc; aa_details : details }.

Definition set_value (x : item) (k : string) (v : Qc) : result item :=
  match i_data x with
  | Some (DDict d) => Ok (set_data x (Some (DDict (dset k v d))))
  | Some (DList _) => Err TypeError
  | None => Err AttributeError
  end.
Definition set_if (b : bool) (x : item) (k : string) (v : result Qc) : result item := if b then do v <- v; set_value x k v else Ok x.
(* models/anomaly_detectors.py 734-748 *)
Definition add_details (dt : details) (x : item) (lb : string) (predicted err : Qc) (adh : result Qc) : result item :=
  match dt with
  | DNone => Ok x
  | DSome p r a =>
      do x <- set_if p x (lb ++ "_pred") (Ok predicted);
      do x <- set_if r x (lb ++ "_err") (Ok err);
      set_if a x (lb ++ "_adh)") adh
  | DAll =>
      do x <- set_if true x (lb ++ "_pred") (Ok predicted);
      do x <- set_if true x (lb ++ "_err") (Ok err);
      set_if true x (lb ++ "_adh") adh
  | DOther => Err TypeError
  end.
(* The predictions stored by preprocess, by position and label *)
Definition stored := list (nat * dict Qc).
Fixpoint nget {V} (k : nat) (l : list (nat * V)) : option V := match l with [] => None | (k', v) :: r => if Nat.eqb k k' then Some v else nget k r end.
Definition prediction_of (D : detector_model) (pre : option stored) (s : series) (i : nat) (lb : string) : result Qc :=
  match pre with
  | Some P => match nget i P with Some d => by_key d lb | None => Err KeyError end
  | None => predicted_of (an_inner D) s i lb
  end.
(* models/anomaly_detectors.py 660-748: one label of one item *)
Definition label_step (lg : Qc -> Qc) (D : detector_model) (A : apply_args) (pre : option stored) (s : series) (i : nat)
    (st : item * list Qc) (lr : string * range) : result (item * list Qc) :=
  let '(lb, g) := lr in
  do a <- actual_of s i lb;
  do p <- prediction_of D pre s i lb;
  do err <- error_of (an_metric D) a p;
  let x := fold_error (r_dist g) err in
  do v <- index_at lg (aa_type A) g x;
  do it <- add_details (aa_details A) (fst st) lb p x (np_div (pdf (r_dist g) x) (r_ymax g));
  Ok (it, snd st ++ [cut (aa_threshold A) v]).
(* models/anomaly_detectors.py 750-761 *)
Definition overall (st : strategy) (vs : list Qc) : result Qc :=
  match vs with
  | [v] => Ok v
  | _ => match st with SMin => lmin vs | SMax => lmax vs | SAvg => lavg vs | SCustom f => f vs end
  end.
Definition set_anomaly (x : item) (v : Qc) : item := set_idx x (dset "anomaly" (Some v) (i_idx x)).
Definition item_index (lg : Qc -> Qc) (D : detector_model) (A : apply_args) (pre : option stored) (s : series) (gs : list (string * range)) (i : nat) : result item :=
  do x <- ts_get_i s (Z.of_nat i);
  do st <- foldM (label_step lg D A pre s i) gs (x, []);
  do v <- overall (aa_strategy A) (snd st);
  Ok (set_anomaly (fst st) v).

(* ---------------- data losses ---------------- *)
Definition lossy_at (thr : Qc) (s : series) (i : nat) : result bool :=
  do x <- ts_get_i s (Z.of_nat i); Ok (match data_loss x with None => false | Some v => qleb thr v end).
Fixpoint any_lossy (thr : Qc) (s : series) (is : list nat) : result bool :=
  match is with [] => Ok false | i :: r => do b <- lossy_at thr s i; if b then Ok true else any_lossy thr s r end.
Inductive fate := Go | AsItIs | Stop.
(* models/anomaly_detectors.py 643-658.  For a reconstructor the check on the other side of the window is done once, with the last
   value of j, it reads a data loss which can be missing, and its `break` leaves the loop on the items. *)
Definition fate_of (D : detector_model) (thr : Qc) (s : series) (i : nat) : result fate :=
  do b <- lossy_at thr s i;
  if b then Ok AsItIs else
  do b <- any_lossy thr s (map (fun j => i - j - 1) (seq 0 (an_window D)));
  if b then Ok AsItIs else
  if is_reconstructor (an_inner D) then
    match an_window D with
    | 0 => Err UnboundLocalError
    | S j => do x <- ts_get_i s (Z.of_nat (i - j - 1));
             match data_loss x with
             | None => Ok Go
             | Some _ => do y <- ts_get_i s (Z.of_nat (i + j + 1));
                         match data_loss y with None => Err TypeError | Some v => Ok (if qleb thr v then Stop else Go) end
             end
    end
  else Ok Go.

(* ---------------- apply ---------------- *)
Definition append_to (e : env) (s : series) (x : item) : result series := let '(s', r) := ts_append e s x in do _ <- r; Ok s'.
(* models/anomaly_detectors.py 625-767: the loop on the items *)
Fixpoint apply_loop (e : env) (lg : Qc -> Qc) (D : detector_model) (A : apply_args) (pre : option stored) (s : series) (gs : list (string * range))
    (is : list nat) (out : series) : result series :=
  match is with
  | [] => Ok out
  | i :: r =>
    do f <- fate_of D (aa_loss A) s i;
    match f with
    | Stop => Ok out
    | AsItIs => do x <- ts_get_i s (Z.of_nat i); do out <- append_to e out x; apply_loop e lg D A pre s gs r out
    | Go => do x <- item_index lg D A pre s gs i; do out <- append_to e out x; apply_loop e lg D A pre s gs r out
    end
  end.
(* models/anomaly_detectors.py 517-774.  The message of the error for an unknown metric reads a missing key. *)
Definition an_apply (e : env) (lg : Qc -> Qc) (D : detector_model) (A : apply_args) (pre : option stored) (s : series) : result series :=
  match an_metric D with
  | MSle | MUnknown => Err KeyError
  | _ =>
    do ls <- labels_of s;
    do gs <- mapM (fun lb => do g <- range_of lg D (aa_type A) (aa_tuple A) (aa_start A) (aa_end A) lb; Ok (lb, g)) ls;
    apply_loop e lg D A pre s gs (positions (an_inner D) (an_window D) (length (s_items s))) (empty_series None)
  end.

(* models/anomaly_detectors.py 484-513: the predictions (which are set on the series) *)
Definition an_preprocess (D : detector_model) (s : series) : result stored :=
  mapM (fun i => do ls <- labels_of s; do d <- mapM (fun lb => do p <- predicted_of (an_inner D) s i lb; Ok (lb, p)) ls; Ok (i, d))
    (positions (an_inner D) (an_window D) (length (s_items s))).
