(* Models.v -- MODEL of the base model class (models/base.py 33-447): fit / predict / apply / evaluate
   protocol, cross validation.

   The logic of a specific model (the decorated functions) is arbitrary: it reads and may change the
   parameters of the model, and may raise.  Timestamps and identifiers (fitted_at, id) are not modelled
   here, nor is the logging. *)
From Verif Require Export Transform.

(* What is given to a model: a time series, a view on one, or anything else. *)
Inductive arg := ASeries (s : series) | AView (s : series) (from to : nat) | AOther.
(* datastructures.py 1881-1905: a view has the resolution, the labels and the truth value of its series *)
Definition arg_series (a : arg) : option series :=
  match a with ASeries s => Some s | AView s _ _ => Some s | AOther => None end.

Inductive kind := KPredict | KApply | KEvaluate.

(* The logic of a model, on its parameters. *)
Record logic (P A : Type) := mkLogic {
  lg_fit : P -> arg -> P * result unit;
  lg_call : kind -> P -> arg -> P * result A }.
Arguments mkLogic {P A}. Arguments lg_fit {P A}. Arguments lg_call {P A}.

(* models/base.py 52-78: a model.  m_res and m_labels are data['resolution'] and data['data_labels'] (None:
   no such key), m_context: if data['context_data_labels'] is set and not empty; m_fit: if the fit is
   implemented (150-159: fitting None raises, in the decorator, but for NotImplementedError, and has no
   effect); m_parametric: the type. *)
Record model (P : Type) := mkModel {
  m_fit : bool; m_parametric : bool; m_context : bool; m_fitted : bool;
  m_res : option (option res); m_labels : option (option (list string)); m_params : P }.
Arguments mkModel {P}. Arguments m_fit {P}. Arguments m_parametric {P}. Arguments m_context {P}. Arguments m_fitted {P}.
Arguments m_res {P}. Arguments m_labels {P}. Arguments m_params {P}.

(* models/base.py 52-78: a new model; has_data: its class sets some parameters before *)
Definition new_model {P} (fit has_data context : bool) (p : P) : model P :=
  mkModel fit (fit || has_data) context false None None p.

Definition set_fitted {P} (m : model P) (b : bool) : model P :=
  mkModel (m_fit m) (m_parametric m) (m_context m) b (m_res m) (m_labels m) (m_params m).
Definition set_params {P} (m : model P) (p : P) : model P :=
  mkModel (m_fit m) (m_parametric m) (m_context m) (m_fitted m) (m_res m) (m_labels m) p.
Definition set_mres {P} (m : model P) (r : option res) : model P :=
  mkModel (m_fit m) (m_parametric m) (m_context m) (m_fitted m) (Some r) (m_labels m) (m_params m).
Definition set_mlabels {P} (m : model P) (l : option (list string)) : model P :=
  mkModel (m_fit m) (m_parametric m) (m_context m) (m_fitted m) (m_res m) (Some l) (m_params m).

(* The outcome of a call: refused by the checks, with an exception, or handed over to the logic of the
   model, which gives a result. *)
Inductive outcome (A : Type) := Refused (e : exc) | Ran (r : result A).
Arguments Refused {A}. Arguments Ran {A}.

(* utilities.py 804-817 and the check before it (models/base.py 175-180, 217-223, ..) *)
Definition check_series (a : arg) : result series :=
  match arg_series a with
  | None => Err TypeError
  | Some s =>
    match s_items s with
    | [] => Err ValueError
    | _ => match resolution s with Some RVar => Err ValueError | _ => Ok s end
    end
  end.

(* utilities.py 820-845: the resolutions are equal, or equal as seconds (two units of the same length in
   seconds are the same unit in this model) *)
Definition same_resolution (a b : option res) : bool :=
  match a, b with
  | None, None => true
  | Some (RUnit u), Some (RUnit v) => tunit_eqb u v
  | Some RVar, Some RVar => true
  | _, _ => false
  end.

(* utilities.py 847-854 *)
Fixpoint strings_eqb (a b : list string) : bool :=
  match a, b with
  | [], [] => true
  | x :: r, y :: t => String.eqb x y && strings_eqb r t
  | _, _ => false
  end.
Definition check_labels (s : series) (labels : option (list string)) : result unit :=
  do l <- ts_data_labels s;
  match l, labels with
  | Some a, Some b => if strings_eqb a b then Ok tt else Err ValueError
  | _, _ => Err TypeError      (* len(None) *)
  end.

(* models/base.py 182-195: resolution and labels are set before the logic is called (an AttributeError is
   ignored). *)
Definition set_reference {P} (m : model P) (s : series) : model P * result unit :=
  let m := set_mres m (resolution s) in
  match ts_data_labels s with
  | Ok l => (set_mlabels m l, Ok tt)
  | Err AttributeError => (m, Ok tt)
  | Err x => (m, Err x)
  end.
(* models/base.py 172-201: do_fit *)
Definition do_fit {P A} (L : logic P A) (m : model P) (a : arg) : model P * outcome unit :=
  match check_series a with
  | Err x => (m, Refused x)
  | Ok s =>
    match set_reference m s with
    | (m, Err x) => (m, Refused x)
    | (m, Ok _) =>
      match lg_fit L (m_params m) a with
      | (p, Ok _) => (set_fitted (set_params m p) true, Ran (Ok tt))
      | (p, Err x) => (set_params m p, Ran (Err x))
      end
    end
  end.

(* models/base.py 226-233: the checks against the data the model was fitted on.  `isinstance(series.item_type,
   Point)` is always false, as the item type is a class: there is no exception for single points. *)
Definition check_model {P} (m : model P) (s : series) : result unit :=
  if m_parametric m then
    do r <- match m_res m with Some r => Ok r | None => Err KeyError end;
    if same_resolution r (resolution s) then
      do l <- match m_labels m with Some l => Ok l | None => Err KeyError end;
      check_labels s l
    else Err ValueError
  else Ok tt.

(* models/base.py 208-250, 257-279, 286-308: do_predict, do_apply and do_evaluate; only the first checks
   the context data (given: if some context data are given) *)
Definition do_call {P A} (L : logic P A) (m : model P) (k : kind) (a : arg) (given : bool) : model P * outcome A :=
  if m_fit m && negb (m_fitted m) then (m, Refused NotFittedError)
  else
    match (do s <- check_series a; check_model m s) with
    | Err x => (m, Refused x)
    | Ok _ =>
      if match k with KPredict => xorb given (m_context m) | _ => false end then (m, Refused ValueError)
      else let '(p, r) := lg_call L k (m_params m) a in (set_params m p, Ran r)
    end.

(* ---------------- histories ---------------- *)

(* Calls on a model; MUnset is what a cross validation does between its rounds (models/base.py 424). *)
Inductive mop := MFit (a : arg) | MCall (k : kind) (a : arg) (given : bool) | MUnset.
Definition mstep {P A} (L : logic P A) (m : model P) (o : mop) : model P :=
  match o with
  | MFit a => fst (do_fit L m a)
  | MCall k a g => fst (do_call L m k a g)
  | MUnset => set_fitted m false
  end.
Definition mrun {P A} (L : logic P A) (m : model P) (h : list mop) : model P := fold_left (mstep L) h m.

(* ---------------- cross validation ---------------- *)

(* models/base.py 352-357, 361-364: what is validated in the round i *)
Definition round_items (n rounds : nat) : nat := n / rounds.
Definition validate_from (n rounds i : nat) : nat := round_items n rounds * i.
Definition validate_to (n rounds i : nat) : nat := round_items n rounds * i + round_items n rounds.

(* models/base.py 374-421: the fits of a round, on views; the second one is a fit_update, tried if the other
   part is not shorter than the window (if any). *)
Definition round_fits (n rounds i : nat) (window : option nat) : (nat * nat) * option (nat * nat) :=
  let a := validate_from n rounds i in let b := validate_to n rounds i in
  let short k := match window with Some w => negb (Nat.eqb w 0) && Nat.ltb k w | None => false end in
  if Nat.eqb a 0 then ((b, n), None)
  else if Nat.leb n b then ((0, a), None)
  else if Nat.ltb (n - b) a then ((0, a), if short (n - b) then None else Some (b, n))
  else ((b, n), if short a then None else Some (0, a)).

(* models/base.py 359-424: a round: positional access to the series (366-369), fit, update of the fit, and
   evaluation.  The update is a public call as the fit; if not implemented, its exceptions are ignored. *)
Section CrossValidate.
Context {P A : Type}.
Variables (L : logic P A) (update : option (P -> arg -> P * result unit)) (window : option nat).
Definition do_update (m : model P) (a : arg) : model P * result unit :=
  match update with
  | None => (m, Ok tt)                              (* AttributeError, ignored *)
  | Some f =>
    (* the update is decorated as the fit is *)
    match do_fit (mkLogic f (lg_call L)) m a with
    | (m', Refused AttributeError) | (m', Refused NotImplementedError)
    | (m', Ran (Err AttributeError)) | (m', Ran (Err NotImplementedError)) => (m', Ok tt)
    | (m', Refused x) | (m', Ran (Err x)) => (m', Err x)
    | (m', Ran (Ok _)) => (m', Ok tt)
    end
  end.
Definition cv_round (s : series) (rounds : nat) (m : model P) (i : nat) : model P * result A :=
  let n := length (s_items s) in
  let a := validate_from n rounds i in let b := validate_to n rounds i in
  match (do _ <- ts_get_i s (Z.of_nat a);
         match ts_get_i s (Z.of_nat b) with Err IndexError => do _ <- ts_get_i s (Z.of_nat b - 1); Ok tt | Err x => Err x | Ok _ => Ok tt end) with
  | Err x => (m, Err x)
  | Ok _ =>
    let '(f, g) := round_fits n rounds i window in
    match do_fit L m (AView s (fst f) (snd f)) with
    | (m, Refused x) | (m, Ran (Err x)) => (m, Err x)
    | (m, Ran (Ok _)) =>
      match (match g with Some g => do_update m (AView s (fst g) (snd g)) | None => (m, Ok tt) end) with
      | (m, Err x) => (m, Err x)
      | (m, Ok _) =>
        match do_call L m KEvaluate (AView s a b) false with
        | (m, Refused x) | (m, Ran (Err x)) => (m, Err x)
        | (m, Ran (Ok v)) => (set_fitted m false, Ok v)
        end
      end
    end
  end.
(* models/base.py 316-424: the rounds in order; the evaluations are then regrouped and averaged (426-445),
   not modelled. *)
Fixpoint cv_rounds (s : series) (rounds : nat) (m : model P) (is : list nat) : model P * result (list A) :=
  match is with
  | [] => (m, Ok [])
  | i :: r =>
    match cv_round s rounds m i with
    | (m, Err x) => (m, Err x)
    | (m, Ok v) => let '(m, vs) := cv_rounds s rounds m r in (m, do l <- vs; Ok (v :: l))
    end
  end.
Definition cross_validate (m : model P) (a : arg) (rounds : nat) : model P * result (list A) :=
  if m_fitted m then (m, Err NotImplementedError)
  else match check_series a, a with
       | Err x, _ => (m, Err x)
       | Ok _, ASeries s => if Nat.eqb rounds 0 then (m, Err ZeroDivisionError) else cv_rounds s rounds m (seq 0 rounds)
       | Ok _, _ => (m, Err TypeError)   (* views of views: not modelled *)
       end.
End CrossValidate.
