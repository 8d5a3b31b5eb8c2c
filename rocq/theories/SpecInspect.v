(* SpecInspect.v -- SPECIFICATION vocabulary for the inspection of an anomaly detector (C99). *)
From Verif Require Export SpecAnomaly SpecOps Inspect.

Definition least (l : list Qc) (v : Qc) : Prop := In v l /\ forall w, In w l -> Qcle v w.
Definition greatest (l : list Qc) (v : Qc) : Prop := In v l /\ forall w, In w l -> Qcle w v.
(* The errors of a label on the series of the fit, from the item just after the window and the next one on. *)
Definition errors_from (D : detector_model) (s : series) (w : nat) (lb : string) (es : list Qc) : Prop :=
  length es = length (s_items s) - (w + 1) - (if is_reconstructor (an_inner D) then w else 0) /\ forall j err, nth_error es j = Some err -> item_error D s (w + 1 + j) lb err.
(* The names of the predictions and of the errors are not those of other labels. *)
Definition own_names (ls : list string) : Prop := forall a b, In a ls -> In b ls -> a <> (b ++ "_pred")%string /\ a <> (b ++ "_err")%string.
