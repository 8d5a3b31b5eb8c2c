(* SpecModels.v -- SPECIFICATION vocabulary for the models (C48-C60). *)
From Verif Require Export SpecTransform Models.

(* A time series (or a view on it) the models can work on: not empty, and with a fixed resolution. *)
Definition usable (a : arg) : Prop := exists s, arg_series a = Some s /\ s_items s <> [] /\ resolution s <> Some RVar.
(* The same resolution and the same labels. *)
Definition compatible (a b : arg) : Prop :=
  exists s t l, arg_series a = Some s /\ arg_series b = Some t /\ resolution s = resolution t /\
    ts_data_labels s = Ok (Some l) /\ ts_data_labels t = Ok (Some l).
(* The model before the i-th call of the history. *)
Definition before {P A} (L : logic P A) (m : model P) (h : list mop) (i : nat) : model P := mrun L m (firstn i h).
(* The i-th call is a fit, which succeeds. *)
Definition fit_succeeds {P A} (L : logic P A) (m : model P) (h : list mop) (i : nat) (a : arg) : Prop :=
  nth_error h i = Some (MFit a) /\ snd (do_fit L (before L m h i) a) = Ran (Ok tt).

(* ---- cross validation: what the logic of the model is called on ---- *)
Inductive event := EvFit (from to : nat) | EvUpdate (from to : nat) | EvEval (from to : nat) | EvOther.
Definition ev_of (f : nat -> nat -> event) (a : arg) : event := match a with AView _ x y => f x y | _ => EvOther end.
(* The same logic, taking note of the calls. *)
Definition spy {P A} (L : logic P A) : logic (P * list event) A :=
  mkLogic (fun p a => let '(q, r) := lg_fit L (fst p) a in ((q, snd p ++ [ev_of EvFit a]), r))
          (fun k p a => let '(q, r) := lg_call L k (fst p) a in
             ((q, snd p ++ [match k with KEvaluate => ev_of EvEval a | _ => EvOther end]), r)).
Definition spy_update {P} (f : P -> arg -> P * result unit) : (P * list event) -> arg -> (P * list event) * result unit :=
  fun p a => let '(q, r) := f (fst p) a in ((q, snd p ++ [ev_of EvUpdate a]), r).
Definition disjoint_ranges (f v : nat * nat) : Prop := snd f <= fst v \/ snd v <= fst f.
(* Each evaluation is on items not used by the fits since the previous evaluation. *)
Fixpoint never_on_training (fits : list (nat * nat)) (log : list event) : Prop :=
  match log with
  | [] => True
  | EvFit a b :: r => never_on_training ((a, b) :: fits) r
  | EvUpdate a b :: r => never_on_training ((a, b) :: fits) r
  | EvEval a b :: r => (forall f, In f fits -> disjoint_ranges f (a, b)) /\ never_on_training [] r
  | EvOther :: _ => False
  end.
Definition evaluated (log : list event) : list (nat * nat) :=
  flat_map (fun e => match e with EvEval a b => [(a, b)] | _ => [] end) log.
Definition trained (log : list event) : list (nat * nat) :=
  flat_map (fun e => match e with EvFit a b => [(a, b)] | EvUpdate a b => [(a, b)] | _ => [] end) log.
(* Each evaluation, with the fits since the previous one, is on all the n items. *)
Fixpoint on_everything (n : nat) (fits : list (nat * nat)) (log : list event) : Prop :=
  match log with
  | [] => True
  | EvFit a b :: r => on_everything n ((a, b) :: fits) r
  | EvUpdate a b :: r => on_everything n ((a, b) :: fits) r
  | EvEval a b :: r => (forall k, k < n -> (a <= k < b) \/ exists f, In f fits /\ fst f <= k < snd f) /\ on_everything n [] r
  | EvOther :: _ => False
  end.
(* What a round does when the items from x to y (out of n) are evaluated: it fits on the larger of the two other parts of the series, then -- if the model can update
   its fit, and that part is not empty nor shorter than the window of the model -- on the other one, and evaluates. *)
Definition part_size (p : nat * nat) : nat := snd p - fst p.
Definition expected_round (n : nat) (window : option nat) (updates : bool) (x y : nat) (log : list event) : Prop :=
  exists part other, ((part = (0, x) /\ other = (y, n)) \/ (part = (y, n) /\ other = (0, x))) /\ part_size other <= part_size part /\
    ((updates = true /\ part_size other <> 0 /\ (forall w, window = Some w -> w <= part_size other) /\
      log = [EvFit (fst part) (snd part); EvUpdate (fst other) (snd other); EvEval x y]) \/
     ((updates = false \/ part_size other = 0 \/ exists w, window = Some w /\ part_size other < w) /\
      log = [EvFit (fst part) (snd part); EvEval x y])).
