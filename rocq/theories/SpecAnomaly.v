(* SpecAnomaly.v -- SPECIFICATION vocabulary for the anomaly detectors (C57, C69, C70). *)
From Verif Require Export SpecRecon Anomaly.

(* What the inner model predicts for a label of the item i, given the items before it (or the series and the position, for a
   reconstructor). *)
Definition gives (p : prediction) (lb : string) (v : Qc) : Prop :=
  match p with
  | PrList l => exists d r, l = d :: r /\ dget lb d = Some v
  | PrDict d => dget lb d = Some (PvNum v) \/ exists r, dget lb d = Some (PvList (v :: r))
  | PrOther => False
  end.
Definition predicts (m : inner) (s : series) (i : nat) (lb : string) (v : Qc) : Prop :=
  exists p, gives p lb v /\
  match m with
  | IForecaster f => f (mkView s 0 (Z.of_nat i)) = Ok p
  | IWithContext fs => exists f x d, dget lb fs = Some f /\ nth_error (s_items s) i = Some x /\ i_data x = Some d /\ f (mkView s 0 (Z.of_nat i)) d = Ok p
  | IReconstructor f => f s i i = Ok p
  | INeither => False
  end.
(* The error of a prediction. *)
Definition error_is (k : metric) (actual predicted err : Qc) : Prop :=
  match k with
  | ME => err = Qcminus actual predicted
  | MAE => err = qabs (Qcminus actual predicted)
  | MPE => actual <> q0 /\ err = Qcdiv (Qcminus actual predicted) actual
  | MAPE => actual <> q0 /\ err = qabs (Qcdiv (Qcminus actual predicted) actual)
  | MSle | MUnknown => False
  end.
Definition item_error (D : detector_model) (s : series) (i : nat) (lb : string) (err : Qc) : Prop :=
  exists x a p, nth_error (s_items s) i = Some x /\ has_value x lb a /\ predicts (an_inner D) s i lb p /\ error_is (an_metric D) a p err.
(* The error as compared with the bounds of the index: the left side of the distribution is brought to the right. *)
Definition deviates (D : detector_model) (s : series) (i : nat) (lb : string) (x : Qc) : Prop :=
  exists d err, dget lb (an_dists D) = Some d /\ item_error D s i lb err /\
    ((Qcle (loc d) err /\ x = err) \/ (Qclt err (loc d) /\ x = Qcplus (qabs err) (loc d))).

(* The value of a bound for a label. *)
Definition bound_is (D : detector_model) (lb : string) (b : bound) (x : Qc) : Prop :=
  exists all es d, an_errors D = Some all /\ dget lb all = Some es /\ dget lb (an_dists D) = Some d /\
  match b with
  | BNum q => x = q
  | BMaxErr => (exists e, In e es /\ x = qabs e) /\ forall e, In e es -> Qcle (qabs e) x
  | BAvgErr => es <> [] /\ Qcmult x (qn (length es)) = total (map qabs es)
  | BSigma q => exists sd, dget lb (an_stdevs D) = Some sd /\ x = Qcmult q sd
  | BAdherence q => q <> q0 /\ find_x d (Qcdiv (pdf d (loc d)) q) = Ok x
  | BUnknown => False
  end.

(* The index for a deviation x between the bounds xs and xe: 0 up to the start, 1 from the end on, and in the middle the
   density (or its logarithm) rescaled between those at the start and at the end. *)
Definition grade (lg : Qc -> Qc) (it : itype) (d : dist) (xs xe x v : Qc) : Prop :=
  (Qcle x xs /\ v = q0) \/ (Qclt xs x /\ Qcle xe x /\ v = q1) \/
  (Qclt xs x /\ Qclt x xe /\
   match it with
   | ILin => pdf d xs <> pdf d xe /\ pdf d x = Qcminus (pdf d xs) (Qcmult v (Qcminus (pdf d xs) (pdf d xe)))
   | ILog => lg (pdf d xs) <> lg (pdf d xe) /\ lg (pdf d x) = Qcminus (lg (pdf d xs)) (Qcmult v (Qcminus (lg (pdf d xs)) (lg (pdf d xe))))
   | ICustom f => f x (pdf d x) xs xe (pdf d xs) (pdf d xe) = Ok v
   | IUnknown => False
   end).
(* The index of a label of an item, cut if there is a threshold. *)
Definition label_index (lg : Qc -> Qc) (D : detector_model) (A : apply_args) (s : series) (i : nat) (lb : string) (v : Qc) : Prop :=
  exists d xs xe x g, dget lb (an_dists D) = Some d /\ bound_is D lb (aa_start A) xs /\ bound_is D lb (aa_end A) xe /\
    deviates D s i lb x /\ grade lg (aa_type A) d xs xe x g /\
    match aa_threshold A with None => v = g | Some t => (Qclt g t /\ v = q0) \/ (Qcle t g /\ v = q1) end.
(* The index of the item, from those of its labels. *)
Definition combines (st : strategy) (vs : list Qc) (v : Qc) : Prop :=
  vs = [v] \/ (length vs <> 1 /\
  match st with
  | SMin => In v vs /\ forall w, In w vs -> Qcle v w
  | SMax => In v vs /\ forall w, In w vs -> Qcle w v
  | SAvg => vs <> [] /\ Qcmult v (qn (length vs)) = total vs
  | SCustom f => f vs = Ok v
  end).
Definition item_index_is (lg : Qc -> Qc) (D : detector_model) (A : apply_args) (s : series) (i : nat) (v : Qc) : Prop :=
  exists ls vs, labels_of s = Ok ls /\ Forall2 (label_index lg D A s i) ls vs /\ combines (aa_strategy A) vs v.

(* The items for which no index is computed: the item or one in the window before it has too much data loss. *)
Definition skipped (D : detector_model) (thr : Qc) (s : series) (i : nat) : Prop :=
  exists j x, i <= j + an_window D /\ j <= i /\ nth_error (s_items s) j = Some x /\ lossy thr x.
(* The name of a detail of some label. *)
Definition detail_name (ls : list string) (k : string) : Prop :=
  exists lb, In lb ls /\ (k = lb ++ "_pred" \/ k = lb ++ "_err" \/ k = lb ++ "_adh" \/ k = lb ++ "_adh)")%string.

(* The same item but for the anomaly index and for the details, which are added to the data. *)
Definition with_details (ls : list string) (x y : item) : Prop :=
  same_shell x y /\ (forall k, k <> "anomaly"%string -> dget k (i_idx y) = dget k (i_idx x)) /\
  exists d d', i_data x = Some (DDict d) /\ i_data y = Some (DDict d') /\ forall k, ~ detail_name ls k -> dget k d' = dget k d.

(* The density decreases along the range, and the index spans it. *)
Definition decreasing_on (f : Qc -> Qc) (a b : Qc) : Prop := forall x y, Qcle a x -> Qcle x y -> Qcle y b -> Qcle (f y) (f x).
Definition proper (lg : Qc -> Qc) (it : itype) (d : dist) (xs xe : Qc) : Prop :=
  Qclt xs xe ->
  match it with
  | ILin => decreasing_on (pdf d) xs xe /\ Qclt (pdf d xe) (pdf d xs)
  | ILog => decreasing_on (pdf d) xs xe /\ Qclt q0 (pdf d xe) /\ (forall y z, Qclt q0 y -> Qcle y z -> Qcle (lg y) (lg z)) /\ Qclt (lg (pdf d xe)) (lg (pdf d xs))
  | ICustom f => (forall x v, Qclt xs x -> Qclt x xe -> f x (pdf d x) xs xe (pdf d xs) (pdf d xe) = Ok v -> Qcle q0 v /\ Qcle v q1) /\
                 (forall x y v w, Qclt xs x -> Qcle x y -> Qclt y xe -> f x (pdf d x) xs xe (pdf d xs) (pdf d xe) = Ok v ->
                    f y (pdf d y) xs xe (pdf d xs) (pdf d xe) = Ok w -> Qcle v w)
  | IUnknown => False
  end.
Definition proper_ranges (lg : Qc -> Qc) (D : detector_model) (A : apply_args) (ls : list string) : Prop :=
  forall lb d xs xe, In lb ls -> dget lb (an_dists D) = Some d -> bound_is D lb (aa_start A) xs -> bound_is D lb (aa_end A) xe -> proper lg (aa_type A) d xs xe.
Definition standard (st : strategy) : Prop := match st with SCustom _ => False | _ => True end.
(* The inner model predicts from the items it is given (and their resolution) only, and does not look at what follows. *)
Definition reads_items {X} (f : view -> X) : Prop :=
  forall v v' : view, view_items v = view_items v' -> resolution (v_series v) = resolution (v_series v') -> f v = f v'.
Definition reads_past (m : inner) : Prop :=
  match m with
  | IForecaster f => reads_items f
  | IWithContext fs => forall lb f d, In (lb, f) fs -> reads_items (fun v => f v d)
  | _ => False
  end.
(* The bounds of every label have a value (a tuple can hold numbers only), with a positive density for a logarithmic index. *)
Definition bounded (D : detector_model) (A : apply_args) (ls : list string) : Prop :=
  (aa_tuple A = true -> exists a b, aa_start A = BNum a /\ aa_end A = BNum b) /\
  forall lb, In lb ls -> exists xs xe d, dget lb (an_dists D) = Some d /\ bound_is D lb (aa_start A) xs /\ bound_is D lb (aa_end A) xe /\
    (aa_type A = ILog -> Qclt q0 (pdf d xs) /\ Qclt q0 (pdf d xe)).
(* Every item whose index has to be computed has an error for every label. *)
Definition predictable (D : detector_model) (thr : Qc) (s : series) (ls : list string) : Prop :=
  forall i lb, an_window D < i < length (s_items s) -> ~ skipped D thr s i -> In lb ls -> exists err, item_error D s i lb err.
(* Whether a detail is asked for: the prediction, the error, the adherence. *)
Definition wants_pred (dt : details) : Prop := match dt with DAll => True | DSome p _ _ => p = true | _ => False end.
Definition wants_err (dt : details) : Prop := match dt with DAll => True | DSome _ r _ => r = true | _ => False end.
Definition wants_adh (dt : details) : Prop := match dt with DAll => True | DSome _ _ a => a = true | _ => False end.
(* The density of the deviation of a label of the item i, relative to that at the centre of the distribution. *)
Definition adheres (D : detector_model) (s : series) (i : nat) (lb : string) (v : Qc) : Prop :=
  exists d x, dget lb (an_dists D) = Some d /\ deviates D s i lb x /\ pdf d (loc d) <> q0 /\ Qcmult v (pdf d (loc d)) = pdf d x.
